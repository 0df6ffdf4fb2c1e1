(** Resumed immersed-boundary programs complete. *)
From Coq Require Import Lia ZifyBool String List.
Import ListNotations.
From Verif Require Import Prelude ZSum RSum TypesModel GridModel GridSpec GridProof MeshProof
  IndexModel IndexSpec IndexProof BoundaryModel BoundarySpec BoundaryProof OperatorModel OperatorSpec OperatorProof BStateProof LapProof DivProof GradProof
  AdjProof SymProof MatModel BnModel NSModel NSSpec NSProof NSTotal NSPin BnSpec BnProof LinAlg UniqueProof ConvModel ConvSpec ConvProof EnergySpec EnergyProof EnergyRun
  NameModel NameProof DriverModel DriverSpec DriverProof DriveProof RestartProof DecSpec DecProof DecConv ResumeSpec ResumeProof
  BodyModel BodySpec BodyProof BodyUse DeltaModel DeltaSpec DeltaSum IbpmModel IbpmSpec IbpmProof IbpmStep IbpmDec IbpmMove
  IbOutModel IbOutSpec IbOutDrive IbOutSim IbOutLines IbOutProof IbOutDec IbOutTotal IndepSpec IndepProof IndepRun IbGridSpec IbGridProof IbGridRun IbGridProps IbResumeSpec IbResumeDrive IbResumeProof IbResumeMain.
Local Open Scope R_scope.

Section Program.
Context {Ops St : Type} (m : mesh).
Variables (ite : St -> Z) (init : Z -> res (Ops * St)) (wsol : Ops -> string -> St -> list fsop) (wres : Ops -> string -> St -> disk -> list fsop)
  (rres : Ops -> string -> disk -> St -> res St) (line : Ops -> St -> res (list R)) (step : Ops -> St -> res St).
Lemma g_resumes fuel conf mon d : (forall n ops s0, init n = Ok (ops, s0) -> ite s0 = n) -> (forall ops s s', step ops s = Ok s' -> ite s' = (ite s + 1)%Z) ->
  (forall ops p d s s', rres ops p d s = Ok s' -> ite s' = ite s) ->
  (0 < c_nstart conf)%Z -> c_nsave conf <> 0%Z -> c_nrestart conf <> 0%Z -> (Z.to_nat (c_nt conf) <= fuel)%nat ->
  (exists ops s0 s1 s2, init (c_nstart conf) = Ok (ops, s0) /\ rres ops (solution_path (c_out conf) (c_nstart conf)) (run_ops (f_init_ops m conf) d) s0 = Ok s1 /\
     run_steps (step ops) (Z.to_nat (c_nt conf)) s1 = Ok s2 /\ (forall k sk, run_steps (step ops) k s1 = Ok sk -> is_ok (line ops sk))) ->
  exists s2 d2 ls, g_main m ite init wsol wres rres line step fuel conf mon d = Ok (Some (s2, d2, ls)).
Proof.
  intros Hi Hite Hri H0 N1 N2 Hf (ops & s0 & s1 & s2 & E0 & E1 & ER & Hl). pose proof (Hi _ _ _ E0) as I0. pose proof (Hri _ _ _ _ _ E1) as I1.
  assert (L : nleft ite conf s1 = Z.to_nat (c_nt conf)) by (unfold nleft; f_equal; lia).
  unfold g_main. rewrite E0. cbn [bind]. cbv zeta. unfold io_initial_with. rewrite I0. destruct (Z.eqb_spec (c_nstart conf) 0) as [C|_]; [lia|]. rewrite E1. cbn [bind].
  apply (f_drive_total ite (wsol ops) (wres ops) (line ops) (step ops) (Hite ops) conf mon); rewrite ?L; eauto.
Qed.
End Program.

Section Resumes.
Context (m : mesh) (D : dec) (P : nspar) (types : Z -> Z -> bctype) (values : Z -> Z -> R) (name : string) (bodies : list (body * list (list R))) (t0 : R) (U0 p0 : vec).
Context (vs ps : vec -> vec -> vec) (K : kernel) (w : Z).
Hypotheses (Hset : mesh_setup m D) (Hb : bc_fits m types) (Hbo : bodies_ok m D bodies).
Hypotheses (HK : getKernel name = Ok (K, w)) (Hn : (1 <= p_bn P)%Z).
Hypotheses (Hin : forall b i X, located bodies b i X -> inside_domain m X /\ in_reach m types w X)
  (Hrk : forall b bc r, nthZ bodies b = Some bc -> (0 <= r < nranks D)%Z -> (0 < b_l (fst bc) r)%Z).
Context (conf : ioconf) (fuel : nat) (d : disk).
Hypotheses (H0 : (0 < c_nstart conf)%Z) (N1 : c_nsave conf <> 0%Z) (N2 : c_nrestart conf <> 0%Z) (Hf : (Z.to_nat (c_nt conf) <= fuel)%nat).
Let F := setup_facts _ _ Hset.
Local Notation conv := (convection m D).
Local Notation path := (solution_path (c_out conf) (c_nstart conf)).
Local Notation d' := (run_ops (f_init_ops m conf) d).
Lemma conv_ok hist B x : boundary_after m D types values ([OpICs U0] ++ hist) B -> is_ok (conv B x).
Proof. intros HB. exact (convection_total m D _ _ _ B x Hset Hb HB). Qed.

(** A state from which the steps do not fail. *)
Definition sound (s : nsstate) : Prop :=
  (exists h1, boundary_after m D types values ([OpICs U0] ++ h1) (s_bc s)) /\ lenZ (s_conv s) = lenZ (p_cexp P) /\ lenZ (s_diff s) = lenZ (p_dexp P).
Lemma sound_read p dd s s' : sound s -> read_restart m D p dd s = Ok s' -> sound s'.
Proof.
  intros ((h & Hh) & Lc & Ld) E. destruct (read_inv _ _ _ _ _ _ E) as (_ & L1 & L2 & EB). split; [|lia].
  exists (h ++ [OpICs (s_U s')]). rewrite app_assoc. exact (bc_call_inv m D types values _ _ _ _ F Hb Hh EB).
Qed.

(** The decoupled solver. *)
Lemma d_steps_total O B0 X nf rf fs k x : createOperators m D B0 P = Ok O -> boundary_after m D types values [OpICs U0] B0 -> sound (x_ns x) ->
  exists x', run_steps (d_advance m D P O X nf conv rf vs ps fs) k x = Ok x'.
Proof.
  intros EO HB0 Hs. assert (Q : exists x', run_steps (d_advance m D P O X nf conv rf vs ps fs) k x = Ok x' /\ sound (x_ns x')).
  { induction k as [|k (y & Hy & (h1 & Hh) & Lc & Ld)]; [exists x; split; [reflexivity|exact Hs]|]. cbn [run_steps]. rewrite Hy. cbn [bind].
    destruct (d_advance_total m D P types values Hset Hb O B0 U0 h1 X nf conv rf vs ps fs y EO HB0 Hh ltac:(lia) ltac:(lia) (conv_ok h1 _ _ Hh)) as [z Hz].
    exists z. split; [exact Hz|]. split; [exact (d_advance_boundary m D P types values Hset Hb _ _ _ _ _ _ _ _ _ _ _ _ Hh Hz)|]. destruct (d_advance_lens m D P _ _ _ _ _ _ _ _ _ _ Hz) as [-> ->]. auto. }
  destruct Q as (x' & E & _). eauto.
Qed.
Lemma d_read_sound n p dd x x' : sound (x_ns x) -> d_read_restart m D n p dd x = Ok x' -> sound (x_ns x').
Proof.
  intros Hs ER. unfold d_read_restart in ER. apply bind_ok_inv in ER. destruct ER as (s' & E & ER). apply bind_ok_inv in ER. destruct ER as (f & _ & ER). injection ER as <-. exact (sound_read _ _ _ _ Hs E).
Qed.
Lemma e_resumes fs mon : (forall OX x0, e_init m D P types values name bodies t0 U0 p0 (c_nstart conf) = Ok (OX, x0) -> is_ok (d_read_restart m D (n_forces m bodies) path d' x0)) ->
  exists s2 d2 ls, d_main fuel conf m D P types values name bodies t0 U0 p0 mon conv vs ps fs d = Ok (Some (s2, d2, ls)).
Proof.
  intros HR. rewrite d_main_is. apply g_resumes; auto.
  - intros n O s0 E. exact (proj1 (e_init_any _ _ _ _ _ _ _ _ _ _ _ _ _ E)).
  - intros OX. apply e_ite.
  - intros OX. apply e_rite.
  - destruct (decoupled_total m D P types values Hset Hb K w name bodies conv (d_assembleRHSForces m) vs ps fs t0 (c_nstart conf) U0 p0 0%nat Hbo HK Hn Hin Hrk conv_ok) as (O & X & x0 & _ & HI & _).
    destruct (HR (O, X) x0 HI) as [x1 E1]. destruct (d_init_inv m D P types values Hset Hb _ _ _ _ _ _ _ _ _ HI) as (B0 & HB0 & EO & _ & Ex0).
    assert (S0 : sound (x_ns x0)). { rewrite Ex0. split; [exists []; exact HB0|]. cbn [x_ns s_conv s_diff]. now rewrite !lenZ_map. }
    destruct (d_steps_total O B0 X (n_forces m bodies) (d_assembleRHSForces m X) fs (Z.to_nat (c_nt conf)) x1 EO HB0 (d_read_sound _ _ _ _ _ S0 E1)) as [x2 E2].
    exists (O, X), x0, x1, x2. split; [exact HI|]. split; [exact E1|]. split; [exact E2|]. intros k sk _. apply forces_line_total. exact Hbo.
Qed.

(** Moving bodies. *)
Lemma v_resumes mo pos vel fs mon tr : prescribed m D bodies mo pos vel ->
  (forall j b i X, (1 <= j)%nat -> (Z.of_nat j <= c_nt conf)%Z -> located (bodies_at bodies (pos (tr + INR j * p_dt P))) b i X -> inside_domain m X /\ in_reach m types w X) ->
  (forall O s0, v_init m D P types values name bodies t0 U0 p0 (c_nstart conf) = Ok (O, s0) -> exists s1, r_read_restart m D path d' s0 = Ok s1 /\ s_t (x_ns (r_x s1)) = tr) ->
  exists s2 d2 ls, r_main fuel conf m D P types values name bodies mo t0 U0 p0 mon conv vs ps fs d = Ok (Some (s2, d2, ls)).
Proof.
  intros Hmo Hin2 HR. rewrite r_main_is. apply g_resumes; auto.
  - intros n O s0 E. exact (proj1 (proj2 (v_init_any _ _ _ _ _ _ _ _ _ _ _ _ _ E))).
  - intros O s s' E. exact (proj1 (v_ite _ _ _ _ _ _ _ _ _ _ _ _ E)).
  - intros O p dd s s' E. exact (e_rite _ _ _ _ _ _ _ (proj1 (v_read_inv _ _ _ _ _ _ E))).
  - destruct (decoupled_total m D P types values Hset Hb K w name bodies conv (d_assembleRHSForces m) vs ps (fun _ b => b) t0 (c_nstart conf) U0 p0 0%nat Hbo HK Hn Hin Hrk conv_ok) as (O & X & x0 & _ & ED & _).
    set (s0 := mkRS x0 bodies (fun _ => 0) X (di_EBNH X)).
    assert (HI : r_init m D P types values name bodies t0 (c_nstart conf) U0 p0 = Ok (O, s0)) by (unfold r_init; rewrite ED; reflexivity).
    destruct (HR O s0 HI) as (s1 & E1 & ET). destruct (d_init_inv m D P types values Hset Hb _ _ _ _ _ _ _ _ _ ED) as (B0 & HB0 & EO & _ & Ex0).
    assert (S0 : sound (x_ns x0)). { rewrite Ex0. split; [exists []; exact HB0|]. cbn [x_ns s_conv s_diff]. now rewrite !lenZ_map. }
    pose proof (v_inv0 m D P types values name bodies t0 U0 p0 Hset Hb _ _ _ HI) as I0. pose proof (v_invR m D P types values bodies Hset Hb _ _ _ _ I0 E1) as I1.
    destruct (v_read_inv m D _ _ _ _ E1) as [ER _]. pose proof (d_read_sound _ _ _ _ _ S0 ER) as S1.
    assert (Q : forall n, (Z.of_nat n <= c_nt conf)%Z -> exists s', run_steps (v_step m D P name conv vs ps mo fs O) n s1 = Ok s' /\ sound (x_ns (r_x s')) /\ s_t (x_ns (r_x s')) = tr + INR n * p_dt P).
    { induction n as [|k IH]; intros Hk0.
      - exists s1. split; [reflexivity|]. split; [exact S1|]. rewrite ET. cbn [INR]. ring.
      - destruct (IH ltac:(lia)) as (s & Hk & ((h1 & Hh1) & L1 & L2) & T'). cbn [run_steps]. rewrite Hk. cbn [bind].
        destruct (v_steps m D P types values name bodies conv vs ps Hset Hb mo pos vel fs Hmo O k s1 s I1 Hk) as ([_ Hsh] & _).
        assert (A : is_ok (v_step m D P name conv vs ps mo fs O s)).
        { destruct Hsh as (cs & Hcs & Ecs). unfold v_step, r_advance, moveBodies. rewrite T'.
          replace (tr + INR k * p_dt P + p_dt P) with (tr + INR (S k) * p_dt P) by (rewrite S_INR; ring). set (t := tr + INR (S k) * p_dt P).
          destruct (Hmo t) as (Hsp & Hm & Hv). pose proof (shape_len _ _ Hcs) as L. pose proof (shape_len _ _ Hsp) as Lp. rewrite Ecs, at_snd, Hm by auto. cbn [bind].
          destruct (Hv (r_UB s)) as (v' & Ev & Hh). rewrite Ev. cbn [bind]. cbv zeta.
          rewrite set_coords_at by (rewrite Lp; unfold bodies_at; rewrite combine_length, map_length, L; lia). rewrite at_at by auto.
          destruct (extra_total m D P types values Hset Hb K w O (s_bc (x_ns (r_x s))) _ name (bodies_at bodies (pos t)) (ok_at _ _ _ _ Hbo Hsp) HK Hn Hh1) as [X' EX'].
          - intros b i Y HY. apply (Hin2 (S k) b i Y); [lia|lia|exact HY].
          - intros b bc r E Hr. assert (E2 : nthZ (map fst (bodies_at bodies (pos t))) b = Some (fst bc)) by now rewrite nthZ_map, E.
            rewrite at_fst, nthZ_map in E2 by exact Lp. destruct (nthZ bodies b) as [bc0|] eqn:E3; [|discriminate]. injection E2 as <-. now apply (Hrk b bc0 r).
          - rewrite EX'. cbn [bind r_x r_ops r_bodies r_UB r_solver].
            destruct (d_advance_total m D P types values Hset Hb O B0 U0 h1 X' (n_forces m (bodies_at bodies (pos t))) conv (r_assembleRHSForces m X' v') vs ps (fs (di_EBNH X')) (r_x s) EO HB0 Hh1 ltac:(lia) ltac:(lia) (conv_ok h1 _ _ Hh1)) as [x2 Ex2].
            rewrite Ex2. eexists. reflexivity. }
        destruct A as [s' Es']. exists s'. split; [exact Es'|]. destruct (v_ite _ _ _ _ _ _ _ _ _ _ _ _ Es') as [_ Tt].
        split; [|rewrite Tt, T', S_INR; ring]. unfold v_step in Es'. destruct (r_advance_inv m D P name bodies mo pos vel Hmo conv vs ps fs O s s' Hsh Es') as (_ & _ & _ & _ & X5).
        split; [exact (d_advance_boundary m D P types values Hset Hb O U0 h1 _ _ _ _ _ _ _ _ _ Hh1 X5)|]. destruct (d_advance_lens _ _ _ _ _ _ _ _ _ _ _ _ _ X5) as [-> ->]. auto. }
    destruct (Z.leb_spec 0 (c_nt conf)) as [Hle|Hle].
    + destruct (Q (Z.to_nat (c_nt conf)) ltac:(lia)) as (s2 & E2 & _). exists O, s0, s1, s2. split; [exact HI|]. split; [exact E1|]. split; [exact E2|].
      intros k sk Ek. destruct (v_steps m D P types values name bodies conv vs ps Hset Hb mo pos vel fs Hmo O k s1 sk I1 Ek) as ([_ Sk] & _). unfold v_line. rewrite (v_fst _ _ Sk). apply forces_line_total. exact Hbo.
    + exists O, s0, s1, s1. split; [exact HI|]. split; [exact E1|]. split; [replace (Z.to_nat (c_nt conf)) with 0%nat by lia; reflexivity|].
      intros k sk Ek. destruct (v_steps m D P types values name bodies conv vs ps Hset Hb mo pos vel fs Hmo O k s1 sk I1 Ek) as ([_ Sk] & _). unfold v_line. rewrite (v_fst _ _ Sk). apply forces_line_total. exact Hbo.
Qed.

(** The coupled solver. *)
Lemma c_resumes mon : (forall O s0, c_init m D P types values name bodies t0 U0 p0 (c_nstart conf) = Ok (O, s0) -> is_ok (ib_read_restart m D O (n_forces m bodies) path d' s0)) ->
  exists s2 d2 ls, ib_main fuel conf m D P types values name bodies t0 U0 p0 mon conv vs ps d = Ok (Some (s2, d2, ls)).
Proof.
  intros HR. rewrite ib_main_is. apply g_resumes; auto.
  - intros n O s0 E. exact (proj1 (c_init_any _ _ _ _ _ _ _ _ _ _ _ _ _ E)).
  - intros O. apply c_ite.
  - intros O. apply c_rite.
  - destruct (coupled_total m D P types values name bodies Hset Hb Hbo K w conv vs ps t0 (c_nstart conf) U0 p0 0%nat HK Hn Hin Hrk conv_ok) as (O & s0 & _ & HI & _).
    destruct (HR O s0 HI) as [s1 E1]. destruct (ib_init_inv _ _ _ _ _ _ _ Hset Hb _ _ _ _ _ _ HI) as (B0 & HB0 & EO & Es0).
    destruct (ib_createOperators_inv _ _ _ _ _ _ _ EO) as (dv & g & l & E & H & BN & Ed & Eg & El & EI & EB & EOps). cbv zeta in EOps.
    assert (S0 : sound s0). { rewrite Es0. split; [exists []; exact HB0|]. cbn [s_conv s_diff]. now rewrite !lenZ_map. }
    assert (S1 : sound s1).
    { unfold ib_read_restart in E1. apply bind_ok_inv in E1. destruct E1 as (s' & ER & E1). apply bind_ok_inv in E1. destruct E1 as (f & _ & E1). injection E1 as <-. exact (sound_read _ _ (with_p (nest_sub (ib_lay O) 0 (s_p s0)) s0) _ S0 ER). }
    assert (Q : forall k, exists s', run_steps (c_step m D P conv vs ps O) k s1 = Ok s' /\ sound s').
    { induction k as [|k (s & Hk & (h1 & Hh) & Lc & Ld)]; [exists s1; split; [reflexivity|exact S1]|]. cbn [run_steps]. rewrite Hk. cbn [bind].
      assert (A : is_ok (ib_advance m D P O conv vs ps s)).
      { unfold ib_advance. apply (advance_with_total m D P types values F Hb (ib_n O) (ib_assembleRHSPoisson m D P O) conv vs ps (ib_ns O) U0 h1 s); auto; try lia.
        - intros h2 B HB. rewrite (createLaplacian_ok m D types values [OpICs U0] B0 F Hb HB0) in El. injection El as <-. rewrite EOps. cbn [ib_ns o_L].
          eexists; eapply correct; eauto.
        - intros h2 B U HB. unfold ib_assembleRHSPoisson. rewrite (createDivergence_ok m D types values false [OpICs U0] B0 F Hb HB0) in Ed. injection Ed as <-. rewrite EOps. cbn [ib_ns o_D].
          assert (Cx : is_ok (correction_mult m (nranks D) (op_of m D types values (div_rows m D false) [OpICs U0]) B)) by (eexists; eapply correct; eauto).
          destruct Cx as [c ->]. cbn [bind]. eexists. reflexivity.
        - exact (conv_ok h1 _ _ Hh). }
      destruct A as [s' Ea]. exists s'. split; [exact Ea|].
      destruct (ib_advance_inv _ _ _ _ _ _ _ _ _ Ea) as (rhs1 & s2 & b & X1 & _ & B1 & _ & _ & _ & B2 & _ & _ & Xc & Xd).
      destruct (rhsvel_slots _ _ _ _ _ _ _ _ _ X1) as [S2 S3]. apply slots_update in S2, S3. cbn [begun s_conv s_diff] in S2, S3. destruct S2 as [S2 _], S3 as [S3 _].
      split; [|rewrite Xc, Xd; lia]. exists (h1 ++ [OpEqs (s_U s) (p_dt P)] ++ [OpVals (s_U s')]).
      apply (bc_call_inv m D types values _ _ _ _ F Hb Hh) in B1. apply (bc_call_inv m D types values _ _ _ _ F Hb B1) in B2. rewrite <- !app_assoc in B2. exact B2. }
    destruct (Q (Z.to_nat (c_nt conf))) as (s2 & E2 & _). exists O, s0, s1, s2. split; [exact HI|]. split; [exact E1|]. split; [exact E2|]. intros k sk _. apply forces_line_total. exact Hbo.
Qed.
End Resumes.

(** The restart file of a run on one grid can be read on another. *)
Section Readable.
Context (m : mesh) (D1 D2 : dec) (P : nspar) (types : Z -> Z -> bctype) (values : Z -> Z -> R) (name : string) (bs1 bs2 : list (body * list (list R))) (K : kernel) (w : Z) (t0 : R) (U1 U2 q1 q2 : vec).
Hypotheses (Hs1 : mesh_setup m D1) (Hs2 : mesh_setup m D2) (Hb : bc_fits m types) (Hbo1 : bodies_ok m D1 bs1) (Hbo2 : bodies_ok m D2 bs2) (Hsm : same_points bs1 bs2).
Hypotheses (HK : getKernel name = Ok (K, w)) (Hbn : (1 <= p_bn P)%Z).
Hypotheses (Hin : forall b i X, located bs2 b i X -> inside_domain m X /\ in_reach m types w X)
  (Hrk : forall b bc r, nthZ bs2 b = Some bc -> (0 <= r < nranks D2)%Z -> (0 < b_l (fst bc) r)%Z).
Context (conf1 conf2 : ioconf) (k j fuel1 fuel2 : nat) (d : disk).
Hypotheses (Ho2 : c_out conf2 = c_out conf1) (H0 : (0 <= c_nstart conf1)%Z) (Hk : c_nt conf1 = Z.of_nat k) (Hk1 : (1 <= k)%nat)
  (Hn2 : c_nstart conf2 = (c_nstart conf1 + Z.of_nat k)%Z) (Hj : c_nt conf2 = Z.of_nat j)
  (Hr : (c_nrestart conf1 | c_nstart conf2)%Z) (Hsv : (c_nsave conf1 | c_nstart conf2)%Z \/ d (solution_path (c_out conf1) (c_nstart conf2)) = None)
  (N1 : c_nsave conf2 <> 0%Z) (N2 : c_nrestart conf2 <> 0%Z) (Hfu : (j <= fuel2)%nat).
Let F1 := setup_facts _ _ Hs1.
Let F2 := setup_facts _ _ Hs2.
Local Notation nf1 := (n_forces m bs1).
Local Notation nf2 := (n_forces m bs2).
Local Notation path := (solution_path (c_out conf2) (c_nstart conf2)).
Lemma nf_eq : nf2 = nf1.
Proof. symmetry. exact (forces_same m D1 D2 bs1 bs2 Hbo1 Hbo2 Hsm). Qed.

Lemma readable_decoupled dd Fl xk x0 B2 : x_ite x0 = x_ite xk -> e_inv m D1 P types values xk -> boundary_after m D2 types values [OpICs U2] B2 -> s_bc (x_ns x0) = B2 ->
  lenZ (s_conv (x_ns x0)) = lenZ (p_cexp P) -> lenZ (s_diff (x_ns x0)) = lenZ (p_dexp P) -> dd path = Some Fl -> e_holds m D1 bs1 xk Fl ->
  exists b0, d_read_restart m D2 nf2 path dd x0 = Ok b0 /\ s_t (x_ns b0) = s_t (x_ns xk).
Proof.
  intros Hi (Hf & Lc & Ld) HB2 EB Lc0 Ld0 EF (HS & HH & Ef).
  destruct (read_other m D1 D2 types values path dd Fl (x_ns xk) (x_ns x0) [OpICs U2] F1 F2 Hb EF HS HH) as (s' & ES & St & _); [lia|lia|exact Hi|now rewrite EB|].
  destruct (load_force_ok path nf2 dd (x_f xk) (x_f x0) Fl (nf_nonneg m D2 bs2 Hbo2) EF) as (f' & EFf & Vf). { rewrite nf_eq. exact Ef. }
  unfold d_read_restart. rewrite ES. cbn [bind]. rewrite EFf. cbn [bind]. eexists. split; [reflexivity|]. symmetry. exact St.
Qed.
Context (vs1 ps1 vs2 ps2 : vec -> vec -> vec).

Lemma decoupled_resumable fs1 fs2 mon1 mon2 s1' d1 ls1 : writes_elsewhere (c_out conf1) mon1 ->
  d_main fuel1 conf1 m D1 P types values name bs1 t0 U1 q1 mon1 (convection m D1) vs1 ps1 fs1 d = Ok (Some (s1', d1, ls1)) ->
  exists sB dB ls2, d_main fuel2 conf2 m D2 P types values name bs2 t0 U2 q2 mon2 (convection m D2) vs2 ps2 fs2 d1 = Ok (Some (sB, dB, ls2)).
Proof.
  intros Hm H1. rewrite d_main_is in H1.
  destruct (g_left m x_ite (e_init m D1 P types values name bs1 t0 U1 q1) (fun _ => d_write_solution m D1) (fun _ => d_write_restart m D1 nf1) (fun _ => d_read_restart m D1 nf1) (fun _ => e_line m D1 bs1) (e_step m D1 P bs1 (convection m D1) vs1 ps1 fs1)
    (e_init_any m D1 P types values name bs1 t0 U1 q1) (fun OX => e_ite m D1 P _ vs1 ps1 _ _ _ _ _) (fun _ => e_rite m D1 _) (fun _ => e_ws m D1) (fun _ => e_wr m D1 _) (fun _ => e_inv m D1 P types values) (fun _ => e_holds m D1 bs1)
    (e_inv0 m D1 P types values name bs1 t0 U1 q1 Hs1 Hb) (fun n OX x0 p d x1 H => e_invR m D1 P types values Hs1 Hb _ p d x0 x1 (e_inv0 m D1 P types values name bs1 t0 U1 q1 Hs1 Hb n OX x0 H))
    (fun OX => e_invS m D1 P types values _ vs1 ps1 Hs1 Hb _ _ _ _ _) (fun OX xk path d' _ _ Hd => e_file m D1 bs1 Hs1 xk path d' Hd)
    conf1 conf1 mon1 mon1 fuel1 fuel1 d s1' d1 ls1 s1' d1 ls1 k 0%nat eq_refl eq_refl H0 Hm Hk Hk1 ltac:(lia) H1 H1) as ([O1 X1] & x0 & x1 & wA & Fl & E1 & E2 & Rk & Rj & Ik & Hik & EF & HF & _).
  { rewrite <- Hn2. exact Hr. } { rewrite <- Hn2. exact Hsv. }
  rewrite <- Hn2 in Hik, EF. rewrite <- Ho2 in EF.
  apply (e_resumes m D2 P types values name bs2 t0 U2 q2 vs2 ps2 K w Hs2 Hb Hbo2 HK Hbn Hin Hrk conf2 fuel2 d1 ltac:(lia) N1 N2 ltac:(lia) fs2 mon2).
  intros [O2 X2] y0 E3. destruct (e_init_any _ _ _ _ _ _ _ _ _ _ _ _ _ E3) as [Iy _]. unfold e_init in E3. destruct (d_init_inv m D2 P types values Hs2 Hb _ _ _ _ _ _ _ _ _ E3) as (B2 & HB2 & _ & _ & EY).
  destruct (readable_decoupled (run_ops (f_init_ops m conf2) d1) Fl s1' y0 B2) as (b0 & Eb & _); auto; try (rewrite EY; cbn [x_ns s_bc s_conv s_diff]; rewrite ?lenZ_map; reflexivity).
  - congruence.
  - rewrite f_init_other by lia. exact EF.
  - exists b0. exact Eb.
Qed.
Lemma moving_resumable mo1 mo2 pos vel fs1 fs2 mon1 mon2 s1' d1 ls1 : prescribed m D1 bs1 mo1 pos vel -> prescribed m D2 bs2 mo2 pos vel -> writes_elsewhere (c_out conf1) mon1 ->
  r_main fuel1 conf1 m D1 P types values name bs1 mo1 t0 U1 q1 mon1 (convection m D1) vs1 ps1 fs1 d = Ok (Some (s1', d1, ls1)) ->
  (forall i b p X, (1 <= i <= j)%nat -> located (bodies_at bs2 (pos (s_t (x_ns (r_x s1')) + INR i * p_dt P))) b p X -> inside_domain m X /\ in_reach m types w X) ->
  exists sB dB ls2, r_main fuel2 conf2 m D2 P types values name bs2 mo2 t0 U2 q2 mon2 (convection m D2) vs2 ps2 fs2 d1 = Ok (Some (sB, dB, ls2)).
Proof.
  intros Hmo1 Hmo2 Hm H1 Hreach. rewrite r_main_is in H1.
  assert (Hany : forall n O s0, v_init m D1 P types values name bs1 t0 U1 q1 n = Ok (O, s0) -> r_ite s0 = n /\ (forall n', exists s0', v_init m D1 P types values name bs1 t0 U1 q1 n' = Ok (O, s0'))) by (intros n O s0 HI; exact (proj2 (v_init_any _ _ _ _ _ _ _ _ _ _ _ _ _ HI))).
  assert (Hite : forall O s s', v_step m D1 P name (convection m D1) vs1 ps1 mo1 fs1 O s = Ok s' -> r_ite s' = (r_ite s + 1)%Z) by (intros O s s' HH; exact (proj1 (v_ite _ _ _ _ _ _ _ _ _ O s s' HH))).
  assert (Hrite : forall (O : nsops) p d0 s s', r_read_restart m D1 p d0 s = Ok s' -> r_ite s' = r_ite s) by (intros O p d0 s s' HH; exact (e_rite _ _ _ _ _ _ _ (proj1 (v_read_inv _ _ _ _ _ _ HH)))).
  destruct (g_left m r_ite (v_init m D1 P types values name bs1 t0 U1 q1) (fun _ path s => d_write_solution m D1 path (r_x s)) (fun _ path s => d_write_restart m D1 (n_forces m (r_bodies s)) path (r_x s))
    (fun _ => r_read_restart m D1) (fun _ => v_line m D1) (v_step m D1 P name (convection m D1) vs1 ps1 mo1 fs1) Hany Hite Hrite (fun _ p s => e_ws m D1 p (r_x s)) (fun _ p s => e_wr m D1 _ p (r_x s))
    (fun _ => v_inv m D1 P types values bs1) (fun _ s Fl => e_holds m D1 bs1 (r_x s) Fl) (v_inv0 m D1 P types values name bs1 t0 U1 q1 Hs1 Hb)
    (fun n O s0 p d x1 HI => v_invR m D1 P types values bs1 Hs1 Hb p d s0 x1 (v_inv0 m D1 P types values name bs1 t0 U1 q1 Hs1 Hb n O s0 HI)) (v_invS m D1 P types values name bs1 (convection m D1) vs1 ps1 Hs1 Hb mo1 pos vel fs1 Hmo1)) with
    (confA := conf1) (conf1 := conf1) (monA := mon1) (mon1 := mon1) (fuelA := fuel1) (fuel1 := fuel1) (d := d) (sA := s1') (dA := d1) (lsA := ls1) (s1' := s1') (d1 := d1) (ls1 := ls1) (k := k) (j := 0%nat)
    as (O1 & x0 & x1 & wA & Fl & E1 & E2 & Rk & Rj & Ik & Hik & EF & HF & _); auto.
  { intros O sk path d' _ [_ Sk] Hd. rewrite (v_nf m bs1 _ Sk). exact (e_file m D1 bs1 Hs1 (r_x sk) path d' Hd). }
  { lia. } { rewrite <- Hn2. exact Hr. } { rewrite <- Hn2. exact Hsv. }
  rewrite <- Hn2 in Hik, EF. rewrite <- Ho2 in EF.
  apply (v_resumes m D2 P types values name bs2 t0 U2 q2 vs2 ps2 K w Hs2 Hb Hbo2 HK Hbn Hin Hrk conf2 fuel2 d1 ltac:(lia) N1 N2 ltac:(lia) mo2 pos vel fs2 mon2 (s_t (x_ns (r_x s1'))) Hmo2).
  { intros i b p X Hi Hi2. apply (Hreach i b p X). lia. }
  intros O2 y0 E3. destruct (v_init_any m D2 P types values name bs2 t0 U2 q2 _ _ _ E3) as ((X2 & y0e & E3e & Ey0) & Iy & _). unfold e_init in E3e.
  destruct (d_init_inv m D2 P types values Hs2 Hb _ _ _ _ _ _ _ _ _ E3e) as (B2 & HB2 & _ & _ & EY).
  destruct (readable_decoupled (run_ops (f_init_ops m conf2) d1) Fl (r_x s1') (r_x y0) B2) as (b0 & Eb & ET); auto; try (rewrite Ey0; cbn [r_x]; rewrite EY; cbn [x_ns s_bc s_conv s_diff]; rewrite ?lenZ_map; reflexivity).
  - change (r_ite y0 = r_ite s1'). congruence.
  - exact (proj1 Ik).
  - rewrite f_init_other by lia. exact EF.
  - pose proof (v_inv0 m D2 P types values name bs2 t0 U2 q2 Hs2 Hb _ _ _ E3) as I2. unfold r_read_restart. rewrite (v_nf m bs2 _ (proj2 I2)), Eb. cbn [bind]. eexists. split; [reflexivity|exact ET].
Qed.
Lemma coupled_resumable mon1 mon2 s1' d1 ls1 : writes_elsewhere (c_out conf1) mon1 ->
  ib_main fuel1 conf1 m D1 P types values name bs1 t0 U1 q1 mon1 (convection m D1) vs1 ps1 d = Ok (Some (s1', d1, ls1)) ->
  exists sB dB ls2, ib_main fuel2 conf2 m D2 P types values name bs2 t0 U2 q2 mon2 (convection m D2) vs2 ps2 d1 = Ok (Some (sB, dB, ls2)).
Proof.
  intros Hm H1. rewrite ib_main_is in H1.
  destruct (g_left m s_ite (c_init m D1 P types values name bs1 t0 U1 q1) (ib_write_solution m D1) (fun O => ib_write_restart m D1 O nf1) (fun O => ib_read_restart m D1 O nf1) (c_line m D1 bs1) (c_step m D1 P (convection m D1) vs1 ps1)
    (c_init_any m D1 P types values name bs1 t0 U1 q1) (c_ite m D1 P _ vs1 ps1) (c_rite m D1 bs1) (c_ws m D1) (c_wr m D1 bs1) (c_inv m D1 P types values) (c_holds m D1 bs1)
    (c_inv0 m D1 P types values name bs1 t0 U1 q1 Hs1 Hb) (c_invR m D1 P types values name bs1 t0 U1 q1 Hs1 Hb) (c_invS m D1 P types values _ vs1 ps1 Hs1 Hb) (fun O s p d _ _ => c_file m D1 bs1 Hs1 O s p d)
    conf1 conf1 mon1 mon1 fuel1 fuel1 d s1' d1 ls1 s1' d1 ls1 k 0%nat eq_refl eq_refl H0 Hm Hk Hk1 ltac:(lia) H1 H1) as (O1 & x0 & x1 & wA & Fl & E1 & E2 & Rk & Rj & Ik & Hik & EF & HF & _).
  { rewrite <- Hn2. exact Hr. } { rewrite <- Hn2. exact Hsv. }
  rewrite <- Hn2 in Hik, EF. rewrite <- Ho2 in EF.
  apply (c_resumes m D2 P types values name bs2 t0 U2 q2 vs2 ps2 K w Hs2 Hb Hbo2 HK Hbn Hin Hrk conf2 fuel2 d1 ltac:(lia) N1 N2 ltac:(lia) mon2).
  intros O2 y0 E3. destruct (c_init_any _ _ _ _ _ _ _ _ _ _ _ _ _ E3) as [Iy _]. unfold c_init in E3. destruct (ib_init_inv m D2 P types values name bs2 Hs2 Hb _ _ _ _ _ _ E3) as (B2 & HB2 & _ & EY).
  destruct Ik as (Hf & Lc & Ld). destruct HF as (HS & HH & Ef).
  assert (EF' : run_ops (f_init_ops m conf2) d1 path = Some Fl) by (rewrite f_init_other by lia; exact EF).
  destruct (read_other m D1 D2 types values path _ Fl (with_p (nest_sub (ib_lay O1) 0 (s_p s1')) s1') (with_p (nest_sub (ib_lay O2) 0 (s_p y0)) y0) [OpICs U2] F1 F2 Hb EF' HS HH) as (s'' & ES' & _).
  { rewrite EY. cbn [with_p s_conv]. rewrite lenZ_map. symmetry. exact Lc. } { rewrite EY. cbn [with_p s_diff]. rewrite lenZ_map. symmetry. exact Ld. } { cbn [with_p s_ite]. congruence. } { rewrite EY. cbn [with_p s_bc]. exact HB2. }
  destruct (load_force_ok path nf2 _ (nest_sub (ib_lay O1) 1 (s_p s1')) (nest_sub (ib_lay O2) 1 (s_p y0)) Fl (nf_nonneg m D2 bs2 Hbo2) EF') as (f'' & EFf & Vf). { rewrite nf_eq. exact Ef. }
  unfold ib_read_restart. rewrite ES'. cbn [bind]. rewrite EFf. cbn [bind]. eexists. reflexivity.
Qed.
End Readable.
