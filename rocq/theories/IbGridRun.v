(** The steps of the three immersed-boundary solvers on two process grids. *)
From Coq Require Import Lia ZifyBool String List.
Import ListNotations.
From Verif Require Import Prelude ZSum RSum TypesModel GridModel GridSpec GridProof MeshProof
  IndexModel IndexSpec IndexProof BoundaryModel BoundarySpec BoundaryProof OperatorModel OperatorSpec OperatorProof BStateProof LapProof DivProof GradProof
  AdjProof SymProof MatModel BnModel NSModel NSSpec NSProof NSPin BnSpec BnProof LinAlg UniqueProof ConvSpec EnergySpec EnergyProof EnergyRun
  BodyModel BodySpec BodyProof DeltaModel DeltaSpec DeltaSum IbpmModel IbpmSpec IbpmProof IbpmStep IbpmDec IbpmMove DriverModel DriverProof RestartProof DecSpec DecProof IndepSpec IndepProof IndepRun IbGridSpec IbGridProof.
Local Open Scope R_scope.

Section Two.
Context (m : mesh) (D1 D2 : dec) (types : Z -> Z -> bctype) (values : Z -> Z -> R).
Hypotheses (Hs1 : mesh_setup m D1) (Hs2 : mesh_setup m D2) (Hb : bc_fits m types) (Hmin : periodic_min m 3) (Hnn : no_normal_neumann m types).
Let F1 := setup_facts _ _ Hs1.
Let F2 := setup_facts _ _ Hs2.
Local Notation nv := (n_velocity m).
Local Notation np := (n_pressure m).
Local Notation SV := (SV m).
Local Notation SP := (SP m).
Local Notation iv1 := (iv m D1).
Local Notation iv2 := (iv m D2).
Local Notation ip1 := (ip m D1).
Local Notation ip2 := (ip m D2).
Local Notation vv := (vv m D1 D2).
Local Notation pp := (pp m D1 D2).

Lemma volume_rel : vv (volume m D1) (volume m D2).
Proof.
  intros [f p] [Hf Hp]. cbn [fst snd] in *. unfold iv, volume. cbn [fst snd]. now rewrite (proj2 (idx_spec m D1 f p F1 Hf Hp)), (proj2 (idx_spec m D2 f p F2 Hf Hp)).
Qed.

(** ** The operators of the bodies *)
Lemma around_same bs1 bs2 h w : same_points bs1 bs2 -> uniform_around m h w bs1 -> uniform_around m h w bs2.
Proof. intros Hsm [P Hu]. split; [exact P|]. intros b i X d k j Hl. apply (Hu b i X). now apply (located_same bs1 bs2 Hsm). Qed.
Lemma spread_rel h name K w bs1 bs2 B1 B2 h1 h2 E1 H1 E2 H2 : uniform_around m h w bs1 -> getKernel name = Ok (K, w) -> wide_enough m w ->
  bodies_ok m D1 bs1 -> bodies_ok m D2 bs2 -> same_points bs1 bs2 ->
  boundary_after m D1 types values h1 B1 -> boundary_after m D2 types values h2 B2 ->
  ib_operators m D1 B1 name bs1 = Ok (E1, H1) -> ib_operators m D2 B2 name bs2 = Ok (E2, H2) ->
  mrel SV iv1 iv2 (SF m bs1) (jf m D1 bs1) (jf m D2 bs2) H1 H2.
Proof.
  intros Hu HK Hw Hb1 Hb2 Hsm HB1 HB2 X1 X2 [f p] [[b i] c] [Hf Hp] ((X & HX) & Hc). cbn [fst snd] in *. unfold iv. cbn [fst snd].
  pose proof (proj1 (located_same bs1 bs2 Hsm b i X) HX) as HX2. pose proof (around_same bs1 bs2 h w Hsm Hu) as Hu2.
  destruct (ib_entries m D1 h Hs1 name K w HK bs1 Hu B1 types values h1 Hb HB1 Hw Hb1 E1 H1 X1 _ b i c X _ f p (jf_row m D1 bs1 b i c X Hb1 HX Hc) HX (proj2 (idx_spec m D1 f p F1 Hf Hp))) as [-> _].
  destruct (ib_entries m D2 h Hs2 name K w HK bs2 Hu2 B2 types values h2 Hb HB2 Hw Hb2 E2 H2 X2 _ b i c X _ f p (jf_row m D2 bs2 b i c X Hb2 HX2 Hc) HX2 (proj2 (idx_spec m D2 f p F2 Hf Hp))) as [-> _].
  reflexivity.
Qed.
Lemma sample_rel name bs1 bs2 B1 B2 E1 H1 E2 H2 : ib_operators m D1 B1 name bs1 = Ok (E1, H1) -> ib_operators m D2 B2 name bs2 = Ok (E2, H2) ->
  mrel SV iv1 iv2 (SF m bs1) (jf m D1 bs1) (jf m D2 bs2) H1 H2 -> mrel (SF m bs1) (jf m D1 bs1) (jf m D2 bs2) SV iv1 iv2 E1 E2.
Proof.
  intros X1 X2 HR u k Su Sk. rewrite (spread_adjoint m D1 name bs1 Hs1 _ _ _ X1) by (apply (numV m D1 F1); exact Sk).
  rewrite (spread_adjoint m D2 name bs2 Hs2 _ _ _ X2) by (apply (numV m D2 F2); exact Sk). now rewrite (HR k u Sk Su), (volume_rel k Sk).
Qed.

(** ** The right-hand side of the momentum system *)
Context (P : nspar) (t0 : R) (n0 : Z) (U1 U2 q1 q2 : vec) (ops1 ops2 : nsops) (a1 a2 : nsstate).
Hypotheses (HI1 : ns_init m D1 P types values t0 n0 U1 q1 = Ok (ops1, a1)) (HI2 : ns_init m D2 P types values t0 n0 U2 q2 = Ok (ops2, a2)).
Hypothesis HU : same_velocity m D1 D2 U1 U2.
Hypotheses (Hc : 0 <= p_dimp P * p_nu P) (Hdt : 0 < p_dt P) (Hbn : p_bn P = 1%Z).
Context (conv1 conv2 : boundary -> vec -> res vec).
Hypothesis Hcv : conv_agree m D1 D2 types values conv1 conv2.
Let RO : ops_rel m D1 D2 ops1 ops2 := ops_related m D1 D2 types values Hs1 Hs2 Hb Hmin Hnn P t0 n0 U1 U2 q1 q2 ops1 ops2 a1 a2 HI1 HI2.
Let lap_c := lap_corr_rel m D1 D2 types values Hs1 Hs2 Hb Hmin Hnn P t0 n0 U1 U2 q1 q2 ops1 ops2 a1 a2 HI1 HI2 HU.
Let div_c := div_corr_rel m D1 D2 types values Hs1 Hs2 Hb Hmin Hnn P t0 n0 U1 U2 q1 q2 ops1 ops2 a1 a2 HI1 HI2 HU.

Definition brel (B1 B2 : boundary) : Prop := exists h1 h2, Forall2 (same_call m D1 D2) h1 h2 /\
  boundary_after m D1 types values ([OpICs U1] ++ h1) B1 /\ boundary_after m D2 types values ([OpICs U2] ++ h2) B2.
Lemma brel_call B1 B2 C1 C2 o1 o2 : brel B1 B2 -> same_call m D1 D2 o1 o2 -> bc_call m D1 o1 B1 = Ok C1 -> bc_call m D2 o2 B2 = Ok C2 -> brel C1 C2.
Proof.
  intros (h1 & h2 & Hh & HB1 & HB2) Ho E1 E2. apply (bc_call_inv m D1 types values _ _ _ _ F1 Hb HB1) in E1. apply (bc_call_inv m D2 types values _ _ _ _ F2 Hb HB2) in E2.
  rewrite <- app_assoc in E1, E2. do 2 eexists. split; [|split; [exact E1|exact E2]]. now apply same_calls_app.
Qed.
Lemma brel_lap B1 B2 c1 c2 : brel B1 B2 -> correction_mult m (nranks D1) (o_L ops1) B1 = Ok c1 -> correction_mult m (nranks D2) (o_L ops2) B2 = Ok c2 -> vv c1 c2.
Proof. intros (h1 & h2 & Hh & HB1 & HB2) E1 E2. exact (lap_c h1 h2 B1 B2 c1 c2 Hh HB1 HB2 E1 E2). Qed.
Lemma brel_div B1 B2 c1 c2 : brel B1 B2 -> correction_mult m (nranks D1) (o_D ops1) B1 = Ok c1 -> correction_mult m (nranks D2) (o_D ops2) B2 = Ok c2 -> pp c1 c2.
Proof. intros (h1 & h2 & Hh & HB1 & HB2) E1 E2. exact (div_c h1 h2 B1 B2 c1 c2 Hh HB1 HB2 E1 E2). Qed.

(** Everything but the pressure. *)
Definition flow_rel (s1 s2 : nsstate) : Prop :=
  s_t s1 = s_t s2 /\ s_ite s1 = s_ite s2 /\ vv (s_U s1) (s_U s2) /\ Forall2 vv (s_conv s1) (s_conv s2) /\ Forall2 vv (s_diff s1) (s_diff s2) /\ brel (s_bc s1) (s_bc s2).

Lemma rhs_rel n1 n2 O1 O2 s1 s2 r1 r2 w1 w2 : o_L O1 = o_L ops1 -> o_L O2 = o_L ops2 -> flow_rel s1 s2 ->
  vv (mvec n1 (o_G O1) (s_p s1)) (mvec n2 (o_G O2) (s_p s2)) ->
  rhs_velocity n1 m D1 P O1 conv1 s1 = Ok (r1, w1) -> rhs_velocity n2 m D2 P O2 conv2 s2 = Ok (r2, w2) ->
  vv r1 r2 /\ Forall2 vv (s_conv w1) (s_conv w2) /\ Forall2 vv (s_diff w1) (s_diff w2) /\ brel (s_bc w1) (s_bc w2).
Proof.
  intros L1 L2 (_ & _ & SU & Sc & Sd & SB) SG E1 E2. unfold rhs_velocity in *. cbv zeta in *. rewrite L1 in E1. rewrite L2 in E2.
  apply bind_ok_inv in E1. destruct E1 as (cs0 & Xc0 & E1). apply bind_ok_inv in E2. destruct E2 as (cs0' & Xc0' & E2). pose proof (rotate_rel _ _ _ _ _ Sc Xc0 Xc0') as Fc0.
  apply bind_ok_inv in E1. destruct E1 as (cs & Xc & E1). apply bind_ok_inv in E2. destruct E2 as (cs' & Xc' & E2).
  assert (Fc : Forall2 vv cs cs').
  { rewrite <- (Forall2_lenZ _ _ _ Fc0) in Xc'. destruct (0 <? lenZ cs0)%Z; [|injection Xc as <-; injection Xc' as <-; exact Fc0].
    apply bind_ok_inv in Xc. destruct Xc as (c & Ec & Xc). apply bind_ok_inv in Xc'. destruct Xc' as (c' & Ec' & Xc').
    refine (wr0_rel _ _ _ _ _ _ _ Fc0 _ Xc Xc'). apply scale_rel. apply (vv_same m D1 D2 Hs1 Hs2). destruct SB as (h1 & h2 & Hh & B1 & B2).
    refine (Hcv _ _ _ _ _ _ _ _ B1 B2 _ _ (proj2 (vv_same m D1 D2 Hs1 Hs2 _ _) SU) Ec Ec').
    - apply Forall2_app; auto. repeat constructor. exact HU.
    - exists U1. apply in_or_app. left. now left. }
  apply bind_ok_inv in E1. destruct E1 as (x1 & X1 & E1). apply bind_ok_inv in E2. destruct E2 as (x2 & X2 & E2).
  assert (V1 : vv x1 x2).
  { refine (add_terms_rel m D1 D2 _ _ _ _ _ _ _ Fc _ X1 X2). apply axpy_rel; auto. now apply scale_rel. }
  apply bind_ok_inv in E1. destruct E1 as (ds0 & Xd0 & E1). apply bind_ok_inv in E2. destruct E2 as (ds0' & Xd0' & E2). pose proof (rotate_rel _ _ _ _ _ Sd Xd0 Xd0') as Fd0.
  apply bind_ok_inv in E1. destruct E1 as (ds & Xd & E1). apply bind_ok_inv in E2. destruct E2 as (ds' & Xd' & E2).
  assert (Fd : Forall2 vv ds ds').
  { rewrite <- (Forall2_lenZ _ _ _ Fd0) in Xd'. destruct (0 <? lenZ ds0)%Z; [|injection Xd as <-; injection Xd' as <-; exact Fd0].
    apply bind_ok_inv in Xd. destruct Xd as (c & Ec & Xd). apply bind_ok_inv in Xd'. destruct Xd' as (c' & Ec' & Xd').
    refine (wr0_rel _ _ _ _ _ _ _ Fd0 _ Xd Xd'). apply scale_rel. apply axpy_rel.
    - exact (mr_mvec _ _ _ _ _ _ _ _ _ _ _ _ _ (numV m D1 F1) (numV m D2 F2) (r_L _ _ _ _ _ RO) SU).
    - exact (brel_lap _ _ _ _ SB Ec Ec'). }
  apply bind_ok_inv in E1. destruct E1 as (y1 & Y1 & E1). apply bind_ok_inv in E2. destruct E2 as (y2 & Y2 & E2).
  pose proof (add_terms_rel m D1 D2 _ _ _ _ _ _ _ Fd V1 Y1 Y2) as V2.
  apply bind_ok_inv in E1. destruct E1 as (C1 & XB1 & E1). apply bind_ok_inv in E2. destruct E2 as (C2 & XB2 & E2).
  apply bind_ok_inv in E1. destruct E1 as (c1 & Ec1 & E1). apply bind_ok_inv in E2. destruct E2 as (c2 & Ec2 & E2).
  injection E1 as <- <-. injection E2 as <- <-. cbn [s_conv s_diff s_bc].
  assert (SB2 : brel C1 C2) by (apply (brel_call _ _ _ _ _ _ SB) with (3 := XB2) (2 := XB1); constructor; now apply (vv_same m D1 D2 Hs1 Hs2)).
  split; [|auto]. apply axpy_rel; auto. apply scale_rel. exact (brel_lap _ _ _ _ SB2 Ec1 Ec2).
Qed.
Let mom_rel := momentum_rel m D1 D2 types values Hs1 Hs2 Hb Hmin Hnn P t0 n0 U1 U2 q1 q2 ops1 ops2 a1 a2 HI1 HI2 Hc Hdt.

(** ** The coupled solver *)
Section Coupled.
Context (name : string) (bs1 bs2 : list (body * list (list R))) (O1 O2 : ibops) (p1 p2 : vec) (c1 c2 : nsstate).
Hypotheses (Hbo1 : bodies_ok m D1 bs1) (Hbo2 : bodies_ok m D2 bs2) (Hsm : same_points bs1 bs2).
Hypotheses (HC1 : ib_init m D1 P types values name bs1 t0 n0 U1 p1 = Ok (O1, c1)) (HC2 : ib_init m D2 P types values name bs2 t0 n0 U2 p2 = Ok (O2, c2)).
Hypothesis HSP : forall B1 B2 h1 h2 E1 H1 E2 H2, boundary_after m D1 types values h1 B1 -> boundary_after m D2 types values h2 B2 ->
  ib_operators m D1 B1 name bs1 = Ok (E1, H1) -> ib_operators m D2 B2 name bs2 = Ok (E2, H2) -> mrel SV iv1 iv2 (SF m bs1) (jf m D1 bs1) (jf m D2 bs2) H1 H2.
Local Notation nf := (n_forces m bs1).
Local Notation lay D bs := (nest_layout (nranks D) (pressure_l D) (bp_nLclAllProcs (m_dim m) (map fst bs))).

Definition SC (x : pt + Z * Z * Z) : Prop := match x with inl p => SP p | inr u => SF m bs1 u end.
Definition place (D : dec) (bs : list (body * list (list R))) (b k : Z) : Z := match findpos pair_eqb (b, k) (lay D bs) 0 with Some i => i | None => 0%Z end.
Definition jc (D : dec) (bs : list (body * list (list R))) (x : pt + Z * Z * Z) : Z := match x with inl p => place D bs 0 (ip m D p) | inr u => place D bs 1 (jf m D bs u) end.
Definition lc (D : dec) (bs : list (body * list (list R))) (c : Z) : pt + Z * Z * Z :=
  match nthZ (lay D bs) c with Some (b, k) => if (b =? 0)%Z then inl (kp D k) else inr (lf m D bs k) | None => inl (0, 0, 0)%Z end.
Lemma place_at D bs b k : mesh_setup m D -> bodies_ok m D bs -> In (b, k) (lay D bs) -> nthZ (lay D bs) (place D bs b k) = Some (b, k).
Proof.
  intros Hs Hbo Hin. unfold place. destruct (findpos_In pair_eqb pair_eqb_spec _ _ 0%Z Hin) as [j Hj]. rewrite Hj.
  apply (findpos_Some pair_eqb pair_eqb_spec) in Hj. destruct Hj as [_ Hj]. now rewrite Z.sub_0_r in Hj.
Qed.
Lemma lay_NoDup D bs : mesh_setup m D -> bodies_ok m D bs -> NoDup (lay D bs).
Proof. intros Hs Hbo. apply nest_NoDup; [intros; apply (pressure_l_nonneg m D); [now apply setup_facts|assumption]|intros; now apply (forces_nonneg m D)]. Qed.
Lemma numF D bs : (D = D1 /\ bs = bs1) \/ (D = D2 /\ bs = bs2) -> numbering nf (SF m bs1) (jf m D bs) (lf m D bs) /\ mesh_setup m D /\ bodies_ok m D bs /\ n_forces m bs = nf.
Proof. intros [[-> ->]|[-> ->]]; (split; [|split; [|split]]); auto; [exact (numF1 m D1 bs1 Hbo1)|exact (numF2 m D1 D2 bs1 bs2 Hbo1 Hbo2 Hsm)|symmetry; now apply (forces_same m D1 D2)]. Qed.
Lemma jc_at D bs x : (D = D1 /\ bs = bs1) \/ (D = D2 /\ bs = bs2) -> SC x ->
  nthZ (lay D bs) (jc D bs x) = Some (match x with inl p => (0%Z, ip m D p) | inr u => (1%Z, jf m D bs u) end).
Proof.
  intros Hd Sx. destruct (numF D bs Hd) as (NF & Hs & Hbo & En). destruct x as [p|u]; cbn [jc SC] in *; apply place_at; auto; apply (lay_In m D bs Hs Hbo).
  - left. split; [reflexivity|]. apply (numP m D (setup_facts _ _ Hs)). exact Sx.
  - right. split; [reflexivity|]. rewrite En. apply NF. exact Sx.
Qed.
Lemma numC D bs : (D = D1 /\ bs = bs1) \/ (D = D2 /\ bs = bs2) -> numbering (np + nf) SC (jc D bs) (lc D bs).
Proof.
  intros Hd. destruct (numF D bs Hd) as (NF & Hs & Hbo & En). pose proof (numP m D (setup_facts _ _ Hs)) as NP.
  pose proof (lay_len m D bs Hs Hbo) as Ln. rewrite En in Ln. split.
  - intros x Sx. pose proof (jc_at D bs x Hd Sx) as N. pose proof (nthZ_Some_range _ _ _ N) as Rg. split; [lia|]. unfold lc. rewrite N.
    destruct x as [p|u]; cbn [Z.eqb]; f_equal; [apply NP|apply NF]; exact Sx.
  - intros c Hcc. rewrite <- Ln in Hcc. destruct (nthZ_in_range _ _ Hcc) as ([b k] & E). pose proof (proj1 (lay_In m D bs Hs Hbo b k) (nthZ_In _ _ _ E)) as Hbk. rewrite En in Hbk.
    unfold lc. rewrite E. assert (Q : forall x, SC x -> (match x with inl p => (0%Z, ip m D p) | inr u => (1%Z, jf m D bs u) end) = (b, k) -> jc D bs x = c).
    { intros x Sx Ex. pose proof (jc_at D bs x Hd Sx) as N. rewrite Ex in N. exact (nthZ_NoDup_inj _ _ _ _ (lay_NoDup D bs Hs Hbo) N E). }
    destruct Hbk as [[-> Hk]|[-> Hk]]; cbn [Z.eqb].
    + destruct (proj2 NP k Hk) as [Sk Ek]. split; [exact Sk|]. apply Q; [exact Sk|]. cbv beta iota. now rewrite Ek.
    + destruct (proj2 NF k Hk) as [Sk Ek]. split; [exact Sk|]. apply Q; [exact Sk|]. cbv beta iota. now rewrite Ek.
Qed.
Let one : (D1 = D1 /\ bs1 = bs1) \/ (D1 = D2 /\ bs1 = bs2) := or_introl (conj eq_refl eq_refl).
Let two : (D2 = D1 /\ bs2 = bs1) \/ (D2 = D2 /\ bs2 = bs2) := or_intror (conj eq_refl eq_refl).
Local Notation jc1 := (jc D1 bs1).
Local Notation jc2 := (jc D2 bs2).
Lemma first_unknown D bs : (D = D1 /\ bs = bs1) \/ (D = D2 /\ bs = bs2) -> jc D bs (inl (0, 0, 0)%Z) = 0%Z /\ SC (inl (0, 0, 0)%Z).
Proof.
  intros Hd. destruct (numF D bs Hd) as (_ & Hs & Hbo & _). destruct (first_cell m D Hs) as [E0 S0]. split; [|exact S0].
  pose proof (jc_at D bs (inl (0, 0, 0)%Z) Hd S0) as N. cbv beta iota in N. rewrite E0 in N. exact (nthZ_NoDup_inj _ _ _ _ (lay_NoDup D bs Hs Hbo) N (lay_head m D bs Hs Hbo)).
Qed.
Lemma zero_relc x : SC x -> (jc1 x =? 0)%Z = (jc2 x =? 0)%Z.
Proof.
  intros Sx. destruct (first_unknown D1 bs1 one) as [E1 S0]. destruct (first_unknown D2 bs2 two) as [E2 _].
  pose proof (numbering_eqb _ _ _ _ _ _ x _ (numC D1 bs1 one) (numC D2 bs2 two) Sx S0) as N. now rewrite E1, E2 in N.
Qed.
Lemma pin_relc A1 A2 : mrel SC jc1 jc2 SC jc1 jc2 A1 A2 -> mrel SC jc1 jc2 SC jc1 jc2 (pin A1) (pin A2).
Proof.
  intros H k l Hk Hl. unfold pin. rewrite !zero_relc by auto. rewrite (numbering_eqb _ _ _ _ _ _ k l (numC D1 bs1 one) (numC D2 bs2 two) Hk Hl).
  destruct (_ || _)%bool; [reflexivity|]. now apply H.
Qed.

(** The inherited operators are those of the Navier-Stokes solver. *)
Lemma ib_aux D bs O c U p q ops a : mesh_setup m D -> ib_init m D P types values name bs t0 n0 U p = Ok (O, c) -> ns_init m D P types values t0 n0 U q = Ok (ops, a) ->
  exists B d g l E H BN, boundary_after m D types values [OpICs U] B /\ ib_operators m D B name bs = Ok (E, H) /\
    createBnHead nv (entry (op_log (o_L ops))) (p_dt P) (p_dimp P * p_nu P) 1 = Ok BN /\
    o_L ops = l /\ o_D ops = d /\ o_G ops = entry g /\
    O = mkIB (mkOps d (nest_cols (lay D bs) (entry g) (mscale (-1) H)) l (o_A ops) (mmul nv BN (nest_cols (lay D bs) (entry g) (mscale (-1) H)))
       (if p_refp P then pin (mmul nv (nest_rows (lay D bs) (entry (op_log d)) E) (mmul nv BN (nest_cols (lay D bs) (entry g) (mscale (-1) H))))
        else mmul nv (nest_rows (lay D bs) (entry (op_log d)) E) (mmul nv BN (nest_cols (lay D bs) (entry g) (mscale (-1) H)))))
       (nest_rows (lay D bs) (entry (op_log d)) E) (lay D bs) (np + n_forces m bs) /\
    c = mkNS t0 n0 U (fun _ => 0) (fun _ => 0) (map (fun _ => (fun _ => 0) : vec) (p_cexp P)) (map (fun _ => (fun _ => 0) : vec) (p_dexp P)) B.
Proof.
  intros Hs HC HI. unfold ib_init, ns_init in HC, HI.
  apply bind_ok_inv in HC. destruct HC as (bl & Ebl & HC). rewrite Ebl in HI. cbn [bind] in HI.
  apply bind_ok_inv in HC. destruct HC as (B & EB & HC). rewrite EB in HI. cbn [bind] in HI.
  apply bind_ok_inv in HC. destruct HC as (o & Eo & HC). injection HC as <- <-. apply bind_ok_inv in HI. destruct HI as (o' & Eo' & HI). injection HI as <- <-.
  pose proof (bc_call_inv m D types values [] _ (OpICs U) B (setup_facts _ _ Hs) Hb (create_after m D types values bl (setup_facts _ _ Hs) Hb Ebl) EB) as HB.
  destruct (ib_createOperators_inv m D P name bs _ _ Eo) as (d & g & l & E & H & BN & Ed & Eg & El & EE & EBN & EOO). cbv zeta in EOO.
  destruct (createOperators_inv _ _ _ _ _ Eo') as (d' & g' & l' & BN' & Ed' & Eg' & El' & EBN' & EOO').
  rewrite Ed in Ed'. injection Ed' as <-. rewrite Eg in Eg'. injection Eg' as <-. rewrite El in El'. injection El' as <-.
  exists B, d, g, l, E, H, BN. rewrite EOO'. cbn [o_L o_D o_G o_A]. rewrite Hbn in EBN. repeat split; auto.
Qed.

Record cops_rel : Prop := {
  rc_n : ib_n O1 = (np + nf)%Z /\ ib_n O2 = (np + nf)%Z;
  rc_lay : ib_lay O1 = lay D1 bs1 /\ ib_lay O2 = lay D2 bs2;
  rc_L : o_L (ib_ns O1) = o_L ops1 /\ o_L (ib_ns O2) = o_L ops2;
  rc_D : o_D (ib_ns O1) = o_D ops1 /\ o_D (ib_ns O2) = o_D ops2;
  rc_A : o_A (ib_ns O1) = o_A ops1 /\ o_A (ib_ns O2) = o_A ops2;
  rc_M : (forall c j, (0 <= c < nv)%Z -> o_BNG (ib_ns O1) c j = p_dt P * o_G (ib_ns O1) c j) /\ (forall c j, (0 <= c < nv)%Z -> o_BNG (ib_ns O2) c j = p_dt P * o_G (ib_ns O2) c j);
  rc_P : o_DBNG (ib_ns O2) = if p_refp P then pin (mmul nv (ib_D O2) (o_BNG (ib_ns O2))) else mmul nv (ib_D O2) (o_BNG (ib_ns O2));
  rc_G : mrel SV iv1 iv2 SC jc1 jc2 (o_G (ib_ns O1)) (o_G (ib_ns O2));
  rc_Dc : mrel SC jc1 jc2 SV iv1 iv2 (ib_D O1) (ib_D O2);
  rc_DBNG : mrel SC jc1 jc2 SC jc1 jc2 (o_DBNG (ib_ns O1)) (o_DBNG (ib_ns O2)) }.
Lemma cops_related : cops_rel.
Proof.
  destruct (ib_aux D1 bs1 O1 c1 U1 p1 q1 ops1 a1 Hs1 HC1 HI1) as (B1 & d1 & g1 & l1 & E1 & H1 & BN1 & HB1 & EI1 & EB1 & EL1 & ED1 & EG1 & EO1 & _).
  destruct (ib_aux D2 bs2 O2 c2 U2 p2 q2 ops2 a2 Hs2 HC2 HI2) as (B2 & d2 & g2 & l2 & E2 & H2 & BN2 & HB2 & EI2 & EB2 & EL2 & ED2 & EG2 & EO2 & _).
  pose proof (HSP _ _ _ _ _ _ _ _ HB1 HB2 EI1 EI2) as RH. pose proof (sample_rel _ _ _ _ _ _ _ _ _ EI1 EI2 RH) as RE.
  destruct (numF D2 bs2 two) as (_ & _ & _ & En).
  pose proof (mr_bn _ _ _ _ _ _ _ _ _ _ _ _ _ (numV m D1 F1) (numV m D2 F2) (r_L _ _ _ _ _ RO) EB1 EB2) as RB.
  assert (RG : mrel SV iv1 iv2 SC jc1 jc2 (nest_cols (lay D1 bs1) (entry g1) (mscale (-1) H1)) (nest_cols (lay D2 bs2) (entry g2) (mscale (-1) H2))).
  { intros k x Sk Sx. unfold nest_cols. rewrite (jc_at D1 bs1 x one Sx), (jc_at D2 bs2 x two Sx). destruct x as [p|u]; cbn [Z.eqb].
    - rewrite <- EG1, <- EG2. exact (r_G _ _ _ _ _ RO k p Sk Sx).
    - unfold mscale. now rewrite (RH k u Sk Sx). }
  assert (RD : mrel SC jc1 jc2 SV iv1 iv2 (nest_rows (lay D1 bs1) (entry (op_log d1)) E1) (nest_rows (lay D2 bs2) (entry (op_log d2)) E2)).
  { intros x k Sx Sk. unfold nest_rows. rewrite (jc_at D1 bs1 x one Sx), (jc_at D2 bs2 x two Sx). destruct x as [p|u]; cbn [Z.eqb].
    - rewrite <- ED1, <- ED2. exact (r_D _ _ _ _ _ RO p k Sx Sk).
    - exact (RE u k Sx Sk). }
  pose proof (mr_mmul _ _ _ _ _ _ _ _ _ _ _ _ _ _ _ _ (numV m D1 F1) (numV m D2 F2) RB RG) as RBG.
  pose proof (mr_mmul _ _ _ _ _ _ _ _ _ _ _ _ _ _ _ _ (numV m D1 F1) (numV m D2 F2) RD RBG) as RDB.
  split; rewrite ?EO1, ?EO2; cbn [ib_n ib_lay ib_ns ib_D o_L o_D o_A o_G o_BNG o_DBNG]; auto. all: try (split; [reflexivity|now rewrite En]).
  - split; intros c j Hcc; [exact (bn_one _ _ _ _ _ _ EB1 c j Hcc)|exact (bn_one _ _ _ _ _ _ EB2 c j Hcc)].
  - destruct (p_refp P); [now apply pin_relc|exact RDB].
Qed.

Definition cgrel (s1 s2 : nsstate) : Prop := flow_rel s1 s2 /\ vv (mvec (ib_n O1) (o_G (ib_ns O1)) (s_p s1)) (mvec (ib_n O2) (o_G (ib_ns O2)) (s_p s2)).
Context (vs1 vs2 ps1 ps2 : vec -> vec -> vec).

Lemma cgstep s1 s2 w1 w2 : cgrel s1 s2 -> coupled_exact_step m D1 P O1 conv1 vs1 ps1 s1 -> coupled_exact_step m D2 P O2 conv2 vs2 ps2 s2 ->
  ib_advance m D1 P O1 conv1 vs1 ps1 s1 = Ok w1 -> ib_advance m D2 P O2 conv2 vs2 ps2 s2 = Ok w2 -> cgrel w1 w2.
Proof.
  intros [SF0 SG] X1 X2 E1 E2. pose proof SF0 as (St & Si & SU & Sc & Sd & SB). pose proof cops_related as RC.
  destruct (rc_n RC) as [N1 N2]. destruct (rc_L RC) as [L1 L2]. destruct (rc_D RC) as [DD1 DD2]. destruct (rc_A RC) as [AA1 AA2]. destruct (rc_M RC) as [M1 M2]. destruct (rc_lay RC) as [Y1 Y2].
  destruct (ib_advance_inv _ _ _ _ _ _ _ _ _ E1) as (r1 & z1 & b1 & R1 & P1 & BE1 & _ & EU1 & Ep1 & BV1 & Et1 & Ei1 & Ec1 & Ed1).
  destruct (ib_advance_inv _ _ _ _ _ _ _ _ _ E2) as (r2 & z2 & b2 & R2 & P2 & BE2 & _ & EU2 & Ep2 & BV2 & Et2 & Ei2 & Ec2 & Ed2).
  destruct (X1 _ _ _ R1 P1) as [SA1 SP1]. destruct (X2 _ _ _ R2 P2) as [SA2 SP2].
  assert (SFb : flow_rel (begun P s1) (begun P s2)) by (unfold flow_rel, begun; cbn [s_t s_ite s_U s_conv s_diff s_bc]; rewrite St, Si; exact (conj eq_refl (conj eq_refl (conj SU (conj Sc (conj Sd SB)))))).
  destruct (rhs_rel (ib_n O1) (ib_n O2) (ib_ns O1) (ib_ns O2) _ _ r1 r2 z1 z2 L1 L2 SFb SG R1 R2) as (Vr & Vc & Vd & Vbc).
  rewrite AA1 in SA1. rewrite AA2 in SA2. pose proof (mom_rel _ _ _ _ Vr SA1 SA2) as VU.
  assert (Vb : vrel SC jc1 jc2 b1 b2).
  { unfold ib_assembleRHSPoisson in P1, P2. rewrite DD1 in P1. rewrite DD2 in P2. apply bind_ok_inv in P1. destruct P1 as (k1 & K1 & P1). apply bind_ok_inv in P2. destruct P2 as (k2 & K2 & P2).
    pose proof (brel_div _ _ _ _ Vbc K1 K2) as Vk. cbv zeta in *. injection P1 as <-. injection P2 as <-. rewrite Y1, Y2.
    pose proof (mr_mvec _ _ _ _ _ _ _ _ _ _ _ _ _ (numV m D1 F1) (numV m D2 F2) (rc_Dc RC) VU) as VD.
    intros x Sx. specialize (VD x Sx).
    assert (Q : match nthZ (lay D1 bs1) (jc1 x) with Some (b, k) => if (b =? 0)%Z then mvec nv (ib_D O1) (vs1 (s_U s1) r1) (jc1 x) + k1 k else mvec nv (ib_D O1) (vs1 (s_U s1) r1) (jc1 x) | None => mvec nv (ib_D O1) (vs1 (s_U s1) r1) (jc1 x) end
      = match nthZ (lay D2 bs2) (jc2 x) with Some (b, k) => if (b =? 0)%Z then mvec nv (ib_D O2) (vs2 (s_U s2) r2) (jc2 x) + k2 k else mvec nv (ib_D O2) (vs2 (s_U s2) r2) (jc2 x) | None => mvec nv (ib_D O2) (vs2 (s_U s2) r2) (jc2 x) end).
    { rewrite (jc_at D1 bs1 x one Sx), (jc_at D2 bs2 x two Sx), VD. destruct x as [p|u]; cbn [Z.eqb]; [|reflexivity]. now rewrite (Vk p Sx). }
    destruct (p_refp P); [|exact Q]. rewrite (zero_relc x Sx). destruct (jc2 x =? 0)%Z; [reflexivity|exact Q]. }
  rewrite N1 in SP1. rewrite N2 in SP2.
  assert (VG : vv (mvec (ib_n O1) (o_G (ib_ns O1)) (ps1 (s_dP s1) b1)) (mvec (ib_n O2) (o_G (ib_ns O2)) (ps2 (s_dP s2) b2))).
  { rewrite N1, N2. refine (still_rel (np + nf) SV iv1 iv2 SC jc1 (lc D1 bs1) jc2 (lc D2 bs2) _ _ _ _ _ _ _ _ (numC D1 bs1 one) (numC D2 bs2 two) (rc_DBNG RC) (rc_G RC) Vb SP1 SP2 _).
    intros y Sy k Sk. pose proof (ib_adjoint m D2 P types values name bs2 t0 n0 U2 p2 O2 c2 Hs2 Hb Hbo2 Hmin Hnn HC2) as Hadj. rewrite N2 in Hadj. rewrite (rc_P RC) in Sy, SP2.
    apply (kernel_still nv (np + nf) (volume m D2) (o_G (ib_ns O2)) (ib_D O2) (o_BNG (ib_ns O2)) (p_dt P) (-1) (p_refp P) _ _ b2); auto; try lra.
    - intros. now apply volume_pos.
    - intros r c' Hr Hc'. rewrite Hadj by auto. ring.
    - apply (numV m D2 F2). exact Sk. }
  assert (VU2 : vv (s_U w1) (s_U w2)).
  { rewrite EU1, EU2. intros k Sk. unfold vaxpy. rewrite (VU k Sk). f_equal. f_equal.
    assert (Q : forall n O c x, (0 <= c < nv)%Z -> (forall c j, (0 <= c < nv)%Z -> o_BNG (ib_ns O) c j = p_dt P * o_G (ib_ns O) c j) -> mvec n (o_BNG (ib_ns O)) x c = p_dt P * mvec n (o_G (ib_ns O)) x c).
    { intros n O c x Hcc HM. unfold mvec, zsum. rewrite <- sumR_scal. apply sumR_ext. intros j _. rewrite HM by auto. ring. }
    rewrite (Q _ O1), (Q _ O2) by (auto; first [apply (numV m D1 F1); exact Sk|apply (numV m D2 F2); exact Sk]). now rewrite (VG k Sk). }
  split; [|rewrite Ep1, Ep2; intros k Sk; rewrite !mvec_axpy, (SG k Sk), (VG k Sk); reflexivity].
  split; [rewrite Et1, Et2, St; reflexivity|]. split; [rewrite Ei1, Ei2, Si; reflexivity|]. split; [exact VU2|]. rewrite Ec1, Ec2, Ed1, Ed2. split; [exact Vc|]. split; [exact Vd|].
  refine (brel_call _ _ _ _ _ _ Vbc _ BV1 BV2). constructor. now apply (vv_same m D1 D2 Hs1 Hs2).
Qed.

Lemma cgrun k : forall s1 s2, along (ib_advance m D1 P O1 conv1 vs1 ps1) (coupled_exact_step m D1 P O1 conv1 vs1 ps1) c1 k ->
  along (ib_advance m D2 P O2 conv2 vs2 ps2) (coupled_exact_step m D2 P O2 conv2 vs2 ps2) c2 k ->
  run_steps (ib_advance m D1 P O1 conv1 vs1 ps1) k c1 = Ok s1 -> run_steps (ib_advance m D2 P O2 conv2 vs2 ps2) k c2 = Ok s2 -> cgrel s1 s2.
Proof.
  induction k as [|k IH]; intros s1 s2 A1 A2 E1 E2.
  - injection E1 as <-. injection E2 as <-.
    destruct (ib_aux D1 bs1 O1 c1 U1 p1 q1 ops1 a1 Hs1 HC1 HI1) as (B1 & d1 & g1 & l1 & E1 & H1 & BN1 & HB1 & _ & _ & _ & _ & _ & _ & Q1).
    destruct (ib_aux D2 bs2 O2 c2 U2 p2 q2 ops2 a2 Hs2 HC2 HI2) as (B2 & d2 & g2 & l2 & E2 & H2 & BN2 & HB2 & _ & _ & _ & _ & _ & _ & Q2).
    assert (Z0 : forall l : list R, Forall2 vv (map (fun _ => (fun _ => 0) : vec) l) (map (fun _ => (fun _ => 0) : vec) l)) by (induction l; cbn [map]; constructor; auto; intros ? _; reflexivity).
    rewrite Q1, Q2. split; [|cbn [s_p]; intros k _; unfold mvec, zsum; rewrite !sumR_zero; auto; intros; ring].
    repeat split; cbn [s_t s_ite s_U s_conv s_diff s_bc]; auto; [now apply (vv_same m D1 D2 Hs1 Hs2)|]. exists [], []. split; [constructor|]. rewrite !app_nil_r. auto.
  - cbn [run_steps] in E1, E2. apply bind_ok_inv in E1. destruct E1 as (y1 & Ea1 & E1). apply bind_ok_inv in E2. destruct E2 as (y2 & Ea2 & E2).
    apply (cgstep y1 y2); auto.
    + apply IH; auto; intros j s Hj; [apply A1|apply A2]; lia.
    + apply (A1 k); auto.
    + apply (A2 k); auto.
Qed.
End Coupled.

(** ** The decoupled solver *)
Definition dgrel (s1 s2 : nsstate) : Prop := flow_rel s1 s2 /\ exists a, (p_refp P = true -> a = 0) /\ pp (s_p s1) (fun i => s_p s2 i + a).
Let pois := poisson_rel m D1 D2 types values Hs1 Hs2 Hb Hmin Hnn P t0 n0 U1 U2 q1 q2 ops1 ops2 a1 a2 HI1 HI2 Hdt Hbn.
Let grad_c := grad_rel_const m D1 D2 types values Hs1 Hs2 Hb Hmin Hnn P t0 n0 U1 U2 q1 q2 ops1 ops2 a1 a2 HI1 HI2.
Let bng_c := bng_rel_const m D1 D2 types values Hs1 Hs2 Hb Hmin Hnn P t0 n0 U1 U2 q1 q2 ops1 ops2 a1 a2 HI1 HI2.

Lemma dg_init : same_pressure D1 D2 q1 q2 -> dgrel a1 a2.
Proof.
  intros Hq. destruct (ns_init_inv _ _ _ _ _ _ _ _ _ _ _ F1 Hb HI1) as (B1 & HB1 & _ & ->). destruct (ns_init_inv _ _ _ _ _ _ _ _ _ _ _ F2 Hb HI2) as (B2 & HB2 & _ & ->).
  assert (Z0 : forall l : list R, Forall2 vv (map (fun _ => (fun _ => 0) : vec) l) (map (fun _ => (fun _ => 0) : vec) l)) by (induction l; cbn [map]; constructor; auto; intros ? _; reflexivity).
  split; [|exists 0; split; auto; cbn [s_p]; intros k Sk; rewrite (proj1 (pp_same m D1 D2 Hs1 Hs2 _ _) Hq k Sk); ring].
  repeat split; cbn [s_t s_ite s_U s_conv s_diff s_bc]; auto; [now apply (vv_same m D1 D2 Hs1 Hs2)|]. exists [], []. split; [constructor|]. rewrite !app_nil_r. auto.
Qed.

Section Step.
Context (name : string) (bs1 bs2 : list (body * list (list R))) (X1 X2 : dops) (B1 B2 : boundary).
Hypotheses (Hbo1 : bodies_ok m D1 bs1) (Hbo2 : bodies_ok m D2 bs2) (Hsm : same_points bs1 bs2).
Hypotheses (EX1 : createExtraOperators m D1 B1 P ops1 name bs1 = Ok X1) (EX2 : createExtraOperators m D2 B2 P ops2 name bs2 = Ok X2).
Local Notation SF := (SF m bs1).
Local Notation jf1 := (jf m D1 bs1).
Local Notation jf2 := (jf m D2 bs2).
Local Notation nf := (n_forces m bs1).
Hypothesis RH : mrel SV iv1 iv2 SF jf1 jf2 (di_H X1) (di_H X2).
Lemma extra_rel : mrel SF jf1 jf2 SV iv1 iv2 (di_E X1) (di_E X2) /\ mrel SV iv1 iv2 SF jf1 jf2 (di_BNH X1) (di_BNH X2) /\ mrel SF jf1 jf2 SF jf1 jf2 (di_EBNH X1) (di_EBNH X2).
Proof.
  destruct (extra_inv m D1 P _ _ _ _ _ EX1) as (E1 & H1 & BN1 & EI1 & EB1 & Q1). destruct (extra_inv m D2 P _ _ _ _ _ EX2) as (E2 & H2 & BN2 & EI2 & EB2 & Q2).
  rewrite Q1, Q2 in *. cbn [di_E di_H di_BNH di_EBNH] in *. rewrite Hbn in EB1, EB2. pose proof (sample_rel _ _ _ _ _ _ _ _ _ EI1 EI2 RH) as RE.
  pose proof (mr_bn _ _ _ _ _ _ _ _ _ _ _ _ _ (numV m D1 F1) (numV m D2 F2) (r_L _ _ _ _ _ RO) EB1 EB2) as RB.
  pose proof (mr_mmul _ _ _ _ _ _ _ _ _ _ _ _ _ _ _ _ (numV m D1 F1) (numV m D2 F2) RB RH) as RBH.
  split; [exact RE|]. split; [exact RBH|]. exact (mr_mmul _ _ _ _ _ _ _ _ _ _ _ _ _ _ _ _ (numV m D1 F1) (numV m D2 F2) RE RBH).
Qed.
Let NF1 := numF1 m D1 bs1 Hbo1.
Let NF2 := numF2 m D1 D2 bs1 bs2 Hbo1 Hbo2 Hsm.
(** The forces spread in the same way when they are found exactly. *)
Lemma forces_rel b1 b2 f1 f2 : ff m D1 D2 bs1 bs2 b1 b2 -> solves nf (di_EBNH X1) f1 b1 -> solves nf (di_EBNH X2) f2 b2 -> vv (mvec nf (di_H X1) f1) (mvec nf (di_H X2) f2).
Proof.
  intros Vb S1 S2. destruct extra_rel as (_ & _ & RR).
  refine (still_rel nf SV iv1 iv2 SF jf1 (lf m D1 bs1) jf2 (lf m D2 bs2) _ _ _ _ _ _ _ _ NF1 NF2 RR RH Vb S1 S2 _).
  intros y Sy k Sk. destruct (extra_inv m D2 P _ _ _ _ _ EX2) as (E & H & BN & EI & EB & Q). rewrite Hbn in EB. rewrite Q in Sy, S2 |- *. cbn [di_E di_H di_BNH di_EBNH] in *.
  refine (kernel_still nv nf (volume m D2) H E (mmul nv BN H) (p_dt P) 1 false _ _ b2 _ _ _ _ _ Sy S2 (iv2 k) (proj1 (proj1 (numV m D2 F2) k Sk))); try lra.
  - intros. now apply volume_pos.
  - intros r c' _ Hc'. rewrite (spread_adjoint m D2 name bs2 Hs2 _ _ _ EI r c' Hc'). ring.
  - intros c' j Hc' _. now apply (bn_one _ _ _ _ _ _ EB).
Qed.
Lemma bnh_of D ops B bs X x c : createExtraOperators m D B P ops name bs = Ok X -> (0 <= c < nv)%Z -> mvec nf (di_BNH X) x c = p_dt P * mvec nf (di_H X) x c.
Proof.
  intros EX Hcc. destruct (extra_inv m D P _ _ _ _ _ EX) as (E & H & BN & EI & EB & Q). rewrite Hbn in EB. rewrite Q. cbn [di_H di_BNH]. exact (bng_of _ _ _ _ _ _ _ _ _ EB Hcc).
Qed.

Context (rf1 rf2 : vec -> vec) (vs1 vs2 ps1 ps2 fs1 fs2 : vec -> vec -> vec).
Hypothesis Hrf : forall u1 u2, vv u1 u2 -> ff m D1 D2 bs1 bs2 (rf1 u1) (rf2 u2).
Lemma dgstep x1 x2 y1 y2 : dgrel (x_ns x1) (x_ns x2) -> vv (mvec nf (di_H X1) (x_f x1)) (mvec nf (di_H X2) (x_f x2)) ->
  decoupled_exact_step m D1 P ops1 X1 nf conv1 rf1 vs1 ps1 fs1 x1 -> decoupled_exact_step m D2 P ops2 X2 nf conv2 rf2 vs2 ps2 fs2 x2 ->
  d_advance m D1 P ops1 X1 nf conv1 rf1 vs1 ps1 fs1 x1 = Ok y1 -> d_advance m D2 P ops2 X2 nf conv2 rf2 vs2 ps2 fs2 x2 = Ok y2 ->
  dgrel (x_ns y1) (x_ns y2) /\ vv (mvec nf (di_H X1) (x_df y1)) (mvec nf (di_H X2) (x_df y2)) /\
  x_f y1 = vaxpy (x_f x1) 1 (x_df y1) /\ x_f y2 = vaxpy (x_f x2) 1 (x_df y2).
Proof.
  intros [SF0 (a & Ha & Sp)] SH Y1 Y2 E1 E2. pose proof SF0 as (St & Si & SU & Sc & Sd & SB).
  destruct (d_advance_inv _ _ _ _ _ _ _ _ _ _ _ _ _ E1) as (r1 & w1 & b1 & R1 & Df1 & P1 & BE1 & Dp1 & EU1 & Ep1 & Ef1 & BV1 & Et1 & Ei1 & Ec1 & Ed1). cbv zeta in *.
  destruct (d_advance_inv _ _ _ _ _ _ _ _ _ _ _ _ _ E2) as (r2 & w2 & b2 & R2 & Df2 & P2 & BE2 & Dp2 & EU2 & Ep2 & Ef2 & BV2 & Et2 & Ei2 & Ec2 & Ed2). cbv zeta in *.
  pose proof P1 as Q1. pose proof P2 as Q2. rewrite Df1 in Q1. rewrite Df2 in Q2.
  destruct (Y1 _ _ _ R1 Q1) as (SA1 & SF1 & SP1). destruct (Y2 _ _ _ R2 Q2) as (SA2 & SF2 & SP2). rewrite <- Df1 in SF1. rewrite <- Df2 in SF2. rewrite <- Dp1 in SP1. rewrite <- Dp2 in SP2.
  assert (SFb : flow_rel (begun P (x_ns x1)) (begun P (x_ns x2))) by (unfold flow_rel, begun; cbn [s_t s_ite s_U s_conv s_diff s_bc]; rewrite St, Si; exact (conj eq_refl (conj eq_refl (conj SU (conj Sc (conj Sd SB)))))).
  destruct (rhs_rel np np ops1 ops2 _ _ r1 r2 w1 w2 eq_refl eq_refl SFb (grad_c _ _ a Sp) R1 R2) as (Vr & Vc & Vd & Vbc).
  pose proof (mom_rel _ _ _ _ (axpy_rel _ _ _ 1 _ _ _ _ SH Vr) SA1 SA2) as VU.
  pose proof (forces_rel _ _ _ _ (Hrf _ _ VU) SF1 SF2) as VH.
  set (W1 := vaxpy _ 1 (mvec nf (di_BNH X1) (x_df y1))) in *. set (W2 := vaxpy _ 1 (mvec nf (di_BNH X2) (x_df y2))) in *.
  assert (VW : vv W1 W2).
  { intros k Sk. unfold W1, W2, vaxpy at 1 3. rewrite (VU k Sk). rewrite (bnh_of _ _ _ _ _ _ _ EX1), (bnh_of _ _ _ _ _ _ _ EX2) by first [apply (numV m D1 F1); exact Sk|apply (numV m D2 F2); exact Sk]. now rewrite (VH k Sk). }
  assert (Vb : pp b1 b2).
  { unfold assembleRHSPoisson in P1, P2. apply bind_ok_inv in P1. destruct P1 as (k1 & K1 & P1). apply bind_ok_inv in P2. destruct P2 as (k2 & K2 & P2).
    pose proof (brel_div _ _ _ _ Vbc K1 K2) as Vk. cbv zeta in *. injection P1 as <-. injection P2 as <-.
    pose proof (axpy_rel _ _ _ 1 _ _ _ _ (mr_mvec _ _ _ _ _ _ _ _ _ _ _ _ _ (numV m D1 F1) (numV m D2 F2) (r_D _ _ _ _ _ RO) VW) Vk) as VD.
    intros p Sp'. specialize (VD p Sp'). case (p_refp P); [|exact VD]. rewrite (zero_rel m D1 D2 Hs1 Hs2 p Sp'). destruct (_ =? 0)%Z; [reflexivity|exact VD]. }
  destruct (pois _ _ _ _ Vb SP1 SP2) as (a' & Ha' & VP).
  assert (VU2 : vv (s_U (x_ns y1)) (s_U (x_ns y2))).
  { rewrite EU1, EU2. apply axpy_rel; auto. exact (bng_c _ _ a' VP). }
  split; [|split; [exact VH|auto]]. split.
  - split; [rewrite Et1, Et2, St; reflexivity|]. split; [rewrite Ei1, Ei2, Si; reflexivity|]. split; [exact VU2|]. rewrite Ec1, Ec2, Ed1, Ed2. split; [exact Vc|]. split; [exact Vd|].
    refine (brel_call _ _ _ _ _ _ Vbc _ BV1 BV2). constructor. now apply (vv_same m D1 D2 Hs1 Hs2).
  - exists (a + a'). split; [intros Er; rewrite (Ha Er), (Ha' Er); ring|]. intros p Sp'. rewrite Ep1, Ep2. unfold vaxpy. rewrite (Sp p Sp'), (VP p Sp'). ring.
Qed.

Lemma dgrun k : same_pressure D1 D2 q1 q2 -> let x0 a := mkDS a (fun _ => 0) (fun _ => 0) in
  forall y1 y2, along (d_advance m D1 P ops1 X1 nf conv1 rf1 vs1 ps1 fs1) (decoupled_exact_step m D1 P ops1 X1 nf conv1 rf1 vs1 ps1 fs1) (x0 a1) k ->
  along (d_advance m D2 P ops2 X2 nf conv2 rf2 vs2 ps2 fs2) (decoupled_exact_step m D2 P ops2 X2 nf conv2 rf2 vs2 ps2 fs2) (x0 a2) k ->
  run_steps (d_advance m D1 P ops1 X1 nf conv1 rf1 vs1 ps1 fs1) k (x0 a1) = Ok y1 -> run_steps (d_advance m D2 P ops2 X2 nf conv2 rf2 vs2 ps2 fs2) k (x0 a2) = Ok y2 ->
  dgrel (x_ns y1) (x_ns y2) /\ vv (mvec nf (di_H X1) (x_f y1)) (mvec nf (di_H X2) (x_f y2)).
Proof.
  intros Hq x0. induction k as [|k IH]; intros y1 y2 A1 A2 E1 E2.
  - injection E1 as <-. injection E2 as <-. split; [exact (dg_init Hq)|]. cbn [x_f x0]. intros k _. unfold mvec, zsum. rewrite !sumR_zero; auto; intros; ring.
  - cbn [run_steps] in E1, E2. apply bind_ok_inv in E1. destruct E1 as (z1 & Ez1 & E1). apply bind_ok_inv in E2. destruct E2 as (z2 & Ez2 & E2).
    destruct (IH z1 z2) as [N VH]; auto. { intros j s Hj; apply A1; lia. } { intros j s Hj; apply A2; lia. }
    destruct (dgstep z1 z2 y1 y2 N VH (A1 k z1 ltac:(lia) Ez1) (A2 k z2 ltac:(lia) Ez2) E1 E2) as (N2 & VD & -> & ->).
    split; [exact N2|]. intros i Hii. now rewrite !mvec_axpy, (VH i Hii), (VD i Hii).
Qed.
(** If no force is lost on the first grid, the forces are the same. *)
Lemma felt_rel f1 f2 : forces_felt m nf X1 -> vv (mvec nf (di_H X1) f1) (mvec nf (di_H X2) f2) -> ff m D1 D2 bs1 bs2 f1 f2.
Proof.
  intros Hff V u Su.
  (* f2 in the numbering of the first grid *)
  pose (g := fun i => f2 (jf2 (lf m D1 bs1 i))).
  assert (Vg : ff m D1 D2 bs1 bs2 g f2). { intros x Sx. unfold g. now rewrite (proj2 (proj1 NF1 x Sx)). }
  pose proof (mr_mvec _ _ _ _ _ _ _ _ _ _ _ _ _ NF1 NF2 RH Vg) as VG.
  assert (Z0 : f1 (jf1 u) - g (jf1 u) = 0).
  { apply (Hff (fun i => f1 i - g i)); [|apply NF1; exact Su]. intros c Hcc. destruct (proj2 (numV m D1 F1) c Hcc) as [Sk Ek]. rewrite <- Ek. rewrite mvec_minus, (V _ Sk), (VG _ Sk). ring. }
  rewrite <- (Vg u Su). lra.
Qed.
End Step.

(** ** Moving bodies *)
Section Moving.
Context (name : string) (bs1 bs2 : list (body * list (list R))) (mo1 mo2 : motion) (pos : R -> list (list (list R))) (vel : R -> Z -> Z -> Z -> R) (s01 s02 : rstate).
Hypotheses (Hbo1 : bodies_ok m D1 bs1) (Hbo2 : bodies_ok m D2 bs2) (Hsm : same_points bs1 bs2).
Hypotheses (Hmo1 : prescribed m D1 bs1 mo1 pos vel) (Hmo2 : prescribed m D2 bs2 mo2 pos vel).
Hypotheses (HR1 : r_init m D1 P types values name bs1 t0 n0 U1 q1 = Ok (ops1, s01)) (HR2 : r_init m D2 P types values name bs2 t0 n0 U2 q2 = Ok (ops2, s02)).
Hypothesis Hq : same_pressure D1 D2 q1 q2.
Context (vs1 vs2 ps1 ps2 : vec -> vec -> vec) (fs1 fs2 : mat -> vec -> vec -> vec).
Local Notation step1 := (r_advance m D1 P ops1 name mo1 conv1 vs1 ps1 fs1).
Local Notation step2 := (r_advance m D2 P ops2 name mo2 conv2 vs2 ps2 fs2).
Local Notation nf := (n_forces m bs1).
Local Notation bsat1 t := (bodies_at bs1 (pos t)).
Local Notation bsat2 t := (bodies_at bs2 (pos t)).
Hypothesis HSP : forall t B1 B2 h1 h2 E1 H1 E2 H2, boundary_after m D1 types values h1 B1 -> boundary_after m D2 types values h2 B2 ->
  ib_operators m D1 B1 name (bsat1 t) = Ok (E1, H1) -> ib_operators m D2 B2 name (bsat2 t) = Ok (E2, H2) ->
  mrel SV iv1 iv2 (SF m (bsat1 t)) (jf m D1 (bsat1 t)) (jf m D2 (bsat2 t)) H1 H2.
Lemma at_same t : same_points (bsat1 t) (bsat2 t).
Proof. unfold same_points. rewrite !at_snd; auto; [exact (shape_len _ _ (proj1 (Hmo2 t)))|exact (shape_len _ _ (proj1 (Hmo1 t)))]. Qed.
Lemma at_ok1 t : bodies_ok m D1 (bsat1 t). Proof. exact (ok_at _ _ _ _ Hbo1 (proj1 (Hmo1 t))). Qed.
Lemma at_ok2 t : bodies_ok m D2 (bsat2 t). Proof. exact (ok_at _ _ _ _ Hbo2 (proj1 (Hmo2 t))). Qed.
Lemma at_layout1 t : map fst (bsat1 t) = map fst bs1. Proof. apply at_fst. exact (shape_len _ _ (proj1 (Hmo1 t))). Qed.
Lemma at_layout2 t : map fst (bsat2 t) = map fst bs2. Proof. apply at_fst. exact (shape_len _ _ (proj1 (Hmo2 t))). Qed.

Definition rgrel (s1 s2 : rstate) : Prop :=
  dgrel (x_ns (r_x s1)) (x_ns (r_x s2)) /\ same_forces m D1 D2 bs1 bs2 (x_f (r_x s1)) (x_f (r_x s2)) /\ map snd (r_bodies s1) = map snd (r_bodies s2).
Lemma sf_at t f1 f2 : same_forces m D1 D2 bs1 bs2 f1 f2 <-> ff m D1 D2 (bsat1 t) (bsat2 t) f1 f2.
Proof.
  rewrite <- (ff_same m D1 D2 (bsat1 t) (bsat2 t) (at_ok1 t) (at_ok2 t) (at_same t)). unfold same_forces. rewrite at_layout1, at_layout2. reflexivity.
Qed.

Lemma rgstep k s1 s2 u1 u2 :
  (forall B X, (exists hist, boundary_after m D1 types values hist B) -> createExtraOperators m D1 B P ops1 name (bsat1 (t0 + INR (S k) * p_dt P)) = Ok X -> forces_felt m nf X) ->
  rgrel s1 s2 -> run_steps step1 k s01 = Ok s1 -> run_steps step2 k s02 = Ok s2 ->
  moving_exact_step m D1 P ops1 name mo1 conv1 vs1 ps1 fs1 s1 -> moving_exact_step m D2 P ops2 name mo2 conv2 vs2 ps2 fs2 s2 ->
  step1 s1 = Ok u1 -> step2 s2 = Ok u2 -> rgrel u1 u2.
Proof.
  intros Hff (N & Sf & Sb) K1 K2 X1 X2 E1 E2.
  destruct (r_steps m D1 P types values Hs1 Hb name bs1 mo1 pos vel Hmo1 conv1 vs1 ps1 fs1 _ _ _ _ _ _ _ _ HR1 K1) as (Sh1 & (h1 & HB1) & T1 & _).
  destruct (r_steps m D2 P types values Hs2 Hb name bs2 mo2 pos vel Hmo2 conv2 vs2 ps2 fs2 _ _ _ _ _ _ _ _ HR2 K2) as (Sh2 & (h2 & HB2) & T2 & _).
  set (t := t0 + INR (S k) * p_dt P) in *. assert (Et : t0 + INR k * p_dt P + p_dt P = t) by (unfold t; rewrite S_INR; ring).
  unfold r_advance in E1, E2. apply bind_ok_inv in E1. destruct E1 as (z1 & Z1 & E1). apply bind_ok_inv in E2. destruct E2 as (z2 & Z2 & E2).
  specialize (X1 _ Z1). specialize (X2 _ Z2). rewrite T1, Et in Z1. rewrite T2, Et in Z2.
  destruct (move_inv m D1 P name bs1 mo1 pos vel Hmo1 ops1 t s1 z1 Sh1 Z1) as (Y1 & Yb1 & Yv1 & YX1 & _).
  destruct (move_inv m D2 P name bs2 mo2 pos vel Hmo2 ops2 t s2 z2 Sh2 Z2) as (Y2 & Yb2 & Yv2 & YX2 & _).
  rewrite Yb1 in YX1. rewrite Yb2 in YX2. pose proof (Hff _ _ (ex_intro (fun h => boundary_after m D1 types values h _) _ HB1) YX1) as Ff.
  assert (En : n_forces m (bsat1 t) = nf) by (apply forces_at; exact (shape_len _ _ (proj1 (Hmo1 t)))).
  pose proof (forces_same m D1 D2 _ _ (at_ok1 t) (at_ok2 t) (at_same t)) as En2.
  rewrite Yb1, Y1 in *. rewrite Yb2, Y2, <- En2 in *.
  apply bind_ok_inv in E1. destruct E1 as (y1 & Ey1 & E1). injection E1 as <-. apply bind_ok_inv in E2. destruct E2 as (y2 & Ey2 & E2). injection E2 as <-.
  assert (RH : mrel SV iv1 iv2 (SF m (bsat1 t)) (jf m D1 (bsat1 t)) (jf m D2 (bsat2 t)) (di_H (r_ops z1)) (di_H (r_ops z2))).
  { destruct (extra_inv m D1 P _ _ _ _ _ YX1) as (Ea & Ha & BNa & EIa & _ & Qa). destruct (extra_inv m D2 P _ _ _ _ _ YX2) as (Eb & Hbb & BNb & EIb & _ & Qb).
    rewrite Qa, Qb. cbn [di_H]. exact (HSP t _ _ _ _ _ _ _ _ HB1 HB2 EIa EIb). }
  destruct (dgstep name (bsat1 t) (bsat2 t) (r_ops z1) (r_ops z2) _ _ (at_ok1 t) (at_ok2 t) (at_same t) YX1 YX2 RH
    (r_assembleRHSForces m (r_ops z1) (r_UB z1)) (r_assembleRHSForces m (r_ops z2) (r_UB z2)) vs1 vs2 ps1 ps2 (fs1 (r_solver z1)) (fs2 (r_solver z2))) with (x1 := r_x s1) (x2 := r_x s2) (y1 := y1) (y2 := y2) as (N2 & VD & EF1 & EF2); auto.
  - intros v1 v2 Hv. destruct (extra_rel name _ _ _ _ _ _ YX1 YX2 RH) as (RE & _).
    pose proof (mr_mvec _ _ _ _ _ _ _ _ _ _ _ _ _ (numV m D1 F1) (numV m D2 F2) RE Hv) as VE.
    assert (VU : ff m D1 D2 (bsat1 t) (bsat2 t) (r_UB z1) (r_UB z2)).
    { apply sf_at. intros i1 i2 [[b i] c] L1 L2. now rewrite (Yv1 _ _ _ _ L1), (Yv2 _ _ _ _ L2). }
    intros u Su. unfold r_assembleRHSForces, vscale. now rewrite (VE u Su), (VU u Su).
  - apply (mr_mvec _ _ _ _ _ _ _ _ _ _ _ _ _ (numF1 m D1 _ (at_ok1 t)) (numF2 m D1 D2 _ _ (at_ok1 t) (at_ok2 t) (at_same t)) RH). now apply sf_at.
  - unfold rgrel. cbn [r_x r_bodies]. split; [exact N2|]. split; [|exact (at_same t)]. apply (sf_at t). rewrite EF1, EF2.
    apply axpy_rel; [|now apply sf_at]. refine (felt_rel _ _ _ _ (at_ok1 t) (at_ok2 t) (at_same t) RH _ _ _ VD). rewrite En. exact Ff.
Qed.

Lemma rgrun k : (forall j B X, (1 <= j <= k)%nat -> (exists hist, boundary_after m D1 types values hist B) -> createExtraOperators m D1 B P ops1 name (bsat1 (t0 + INR j * p_dt P)) = Ok X -> forces_felt m nf X) ->
  forall s1 s2, along step1 (moving_exact_step m D1 P ops1 name mo1 conv1 vs1 ps1 fs1) s01 k -> along step2 (moving_exact_step m D2 P ops2 name mo2 conv2 vs2 ps2 fs2) s02 k ->
  run_steps step1 k s01 = Ok s1 -> run_steps step2 k s02 = Ok s2 -> rgrel s1 s2.
Proof.
  induction k as [|k IH]; intros Hff s1 s2 A1 A2 E1 E2.
  - injection E1 as <-. injection E2 as <-.
    assert (Q : forall D bs ops U q s a, mesh_setup m D -> r_init m D P types values name bs t0 n0 U q = Ok (ops, s) -> ns_init m D P types values t0 n0 U q = Ok (ops, a) -> r_x s = mkDS a (fun _ => 0) (fun _ => 0) /\ r_bodies s = bs).
    { intros D bs ops U q s a Hs HR HI. destruct (r_init_inv m D P types values Hs Hb name bs _ _ _ _ _ _ HR) as (B & X & x0 & _ & _ & ED & _ & Es0 & _).
      unfold d_init in ED. rewrite HI in ED. cbn [bind] in ED. apply bind_ok_inv in ED. destruct ED as (X' & _ & ED). injection ED as _ E0. rewrite Es0, <- E0. auto. }
    destruct (Q _ _ _ _ _ _ _ Hs1 HR1 HI1) as [Q1 Q2]. destruct (Q _ _ _ _ _ _ _ Hs2 HR2 HI2) as [Q3 Q4].
    unfold rgrel. rewrite Q1, Q2, Q3, Q4. cbn [x_ns x_f]. split; [exact (dg_init Hq)|]. split; [intros ? ? ? _ _; reflexivity|exact Hsm].
  - cbn [run_steps] in E1, E2. apply bind_ok_inv in E1. destruct E1 as (z1 & Ez1 & E1). apply bind_ok_inv in E2. destruct E2 as (z2 & Ez2 & E2).
    apply (rgstep k z1 z2); auto.
    + intros B X. apply Hff. lia.
    + apply IH; auto; [intros j B X Hj; apply Hff; lia|intros j s Hj; apply A1; lia|intros j s Hj; apply A2; lia].
    + apply (A1 k); auto.
    + apply (A2 k); auto.
Qed.
End Moving.
End Two.
