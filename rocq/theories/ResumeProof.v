(** Resuming with other solvers, or on another process grid. *)
From Coq Require Import ZifyBool String.
From Verif Require Import Prelude ZSum RSum TypesModel GridModel GridSpec GridProof MeshProof IndexModel IndexSpec IndexProof
  BoundaryModel BoundarySpec BoundaryProof OperatorModel OperatorSpec OperatorProof BStateProof
  MatModel BnModel NSModel NSSpec NSProof NSPin NSTotal GradProof ConvModel ConvSpec ConvProps ConvRespect NameModel DriverModel DriverSpec DriverProof DriveProof RestartProof RunProof DriverProps
  LinModel LinProof UniqueProof UniqueProps DecSpec DecProof DecConv DecProps ResumeSpec.
Local Open Scope R_scope.

Lemma fresh_history m D types values s U B : mfacts m D -> bc_fits m types -> no_convective m types -> fresh m D types values s ->
  boundary_after m D types values [OpICs U] B -> boundary_after m D types values ([OpICs U] ++ [OpICs (s_U s)]) (s_bc s).
Proof.
  intros F Hb Hnc Hf HB. destruct (bc_call_after m D types values _ _ (OpICs (s_U s)) F Hb HB) as (B' & _ & HB').
  apply (after_same _ _ _ _ _ _ _ HB'). intros r Hr. rewrite (after_pure _ _ _ _ _ _ r F Hb HB' Hr), (fresh_pure m D types values F Hb s r Hnc Hf Hr).
  apply (refreshed_state m D types values r [OpICs U] (OpICs (s_U s)) (s_U s) F Hb Hnc Hr); [exists U; now left|now left].
Qed.

Lemma layout_unique m D i1 i2 k : mfacts m D -> nthZ (packed_layout (m_dim m) D) i1 = Some k -> nthZ (packed_layout (m_dim m) D) i2 = Some k -> i2 = i1.
Proof. intros F H1 H2. destruct k as [f p]. destruct (velocity_row m D _ _ _ F H1) as (_ & _ & -> & _). now destruct (velocity_row m D _ _ _ F H2) as (_ & _ & -> & _). Qed.
Lemma layout_range m D i k : mfacts m D -> nthZ (packed_layout (m_dim m) D) i = Some k -> (0 <= i < n_velocity m)%Z.
Proof. intros F H. apply nthZ_Some_range in H. now rewrite (packed_length m D F) in H. Qed.

(** Reading on D2 what D1 wrote. *)
Lemma read_other m D1 D2 types values path d Fl s s0 h0 : mfacts m D1 -> mfacts m D2 -> bc_fits m types -> d path = Some Fl -> holds_solution m D1 s Fl -> holds_history m s Fl ->
  lenZ (s_conv s0) = lenZ (s_conv s) -> lenZ (s_diff s0) = lenZ (s_diff s) -> s_ite s0 = s_ite s -> boundary_after m D2 types values h0 (s_bc s0) ->
  exists s', read_restart m D2 path d s0 = Ok s' /\ s_t s = s_t s' /\ s_ite s = s_ite s' /\ same_velocity m D1 D2 (s_U s) (s_U s') /\ same_pressure D1 D2 (s_p s) (s_p s') /\
    Forall2 (veq (n_velocity m)) (s_conv s) (s_conv s') /\ Forall2 (veq (n_velocity m)) (s_diff s) (s_diff s') /\
    boundary_after m D2 types values (h0 ++ [OpICs (s_U s')]) (s_bc s').
Proof.
  intros F1 F2 Hb E (Hv & Hp & Ht) (Hc & Hd) Lc Ld Hi HB. unfold read_restart. rewrite E.
  destruct (solution_read_ok m D1 D2 path d (s_U s) (s_p s) Fl (s_U s0) (s_p s0) F1 F2 E Hv Hp) as (U' & p' & -> & HU & HP). cbn [bind]. rewrite Ht. cbn [bind].
  destruct (load_history_ok m D2 path d Fl _ _ _ F2 E Hc Lc) as (cs & -> & Fc). cbn [bind].
  destruct (load_history_ok m D2 path d Fl _ _ _ F2 E Hd Ld) as (ds & -> & Fd). cbn [bind].
  destruct (bc_call_after m D2 types values h0 _ (OpICs U') F2 Hb HB) as (B' & -> & HB'). cbn [bind]. eexists. split; [reflexivity|].
  cbn [s_t s_ite s_U s_p s_conv s_diff s_bc]. repeat split; auto.
  - intros i1 i2 f x H1 H2. symmetry. eapply HU; eauto.
  - intros i1 i2 x H1 H2. symmetry. eapply HP; eauto.
Qed.

Section Resume.
Variables (m : mesh) (D1 D2 : dec) (P : nspar) (types : Z -> Z -> bctype) (values : Z -> Z -> R) (t0 : R) (U1 U2 q1 q2 : vec).
Variables (vs1 ps1 vs2 ps2 : vec -> vec -> vec).
Hypotheses (Hs1 : mesh_setup m D1) (Hs2 : mesh_setup m D2) (Hb : bc_fits m types) (Hmin : periodic_min m 3) (Hnn : no_normal_neumann m types).
Hypotheses (Hnc : no_convective m types) (Hc : 0 <= p_dimp P * p_nu P) (Hdt : 0 < p_dt P) (Hbn : p_bn P = 1%Z).
Hypotheses (HU : same_velocity m D1 D2 U1 U2) (Hq : same_pressure D1 D2 q1 q2).
Hypothesis Hcv : conv_agree m D1 D2 types values (convection m D1) (convection m D2).
Let F1 := setup_facts _ _ Hs1.
Let F2 := setup_facts _ _ Hs2.

Lemma resume_from_file ops1 s0 start k sk j sA conf fuel mon d' Fl n0 :
  ns_init m D1 P types values t0 n0 U1 q1 = Ok (ops1, s0) -> fresh m D1 types values start ->
  lenZ (s_conv start) = lenZ (s_conv s0) -> lenZ (s_diff start) = lenZ (s_diff s0) ->
  ns_steps m D1 P ops1 (convection m D1) vs1 ps1 k start = Ok sk -> ns_steps m D1 P ops1 (convection m D1) vs1 ps1 (k + j) start = Ok sA ->
  exact_run m D1 P ops1 (convection m D1) vs1 ps1 start (k + j) ->
  exact_program conf m D2 P types values t0 U2 q2 vs2 ps2 d' j ->
  (D1 = D2 \/ one_level P) ->
  c_nstart conf = s_ite sk -> (0 < s_ite sk)%Z -> c_nt conf = Z.of_nat j -> c_nsave conf <> 0%Z -> c_nrestart conf <> 0%Z -> (j <= fuel)%nat ->
  d' (solution_path (c_out conf) (s_ite sk)) = Some Fl -> holds_solution m D1 sk Fl -> holds_history m sk Fl ->
  exists s2 d2 tr2, ns_main fuel conf m D2 P types values t0 U2 q2 mon (convection m D2) vs2 ps2 d' = Ok (Some (s2, d2, tr2)) /\
    same_flow m D1 D2 (p_refp P) sA s2 /\ (D1 = D2 -> same_state m D1 D2 (p_refp P) sA s2).
Proof.
  intros EI1 Hf Lc Ld Ek EA X1 X2 Hor Hst Hpos Hnt Hsv Hrs Hfu EF HS HH.
  destruct (init_total m D2 P types values t0 (c_nstart conf) U2 q2 F2 Hb ltac:(lia)) as (ops2 & a2 & EI2).
  destruct (ns_init_step _ _ _ _ _ _ _ (c_nstart conf) _ _ _ _ EI1) as [_ EI1']. set (a1 := mkNS _ _ _ _ _ _ _ _) in EI1'.
  destruct (ns_init_inv _ _ _ _ _ _ _ _ _ _ _ F1 Hb EI1) as (B1 & HB1 & _ & E1). destruct (ns_init_inv _ _ _ _ _ _ _ _ _ _ _ F2 Hb EI2) as (B2 & HB2 & _ & E2).
  destruct (steps_slots m D1 P _ _ _ ops1 _ _ _ Ek) as [Lck Ldk].
  assert (N1 : lenZ (s_conv s0) = lenZ (p_cexp P) /\ lenZ (s_diff s0) = lenZ (p_dexp P)) by (rewrite E1; cbn [s_conv s_diff]; now rewrite !lenZ_map).
  assert (N2 : lenZ (s_conv a2) = lenZ (p_cexp P) /\ lenZ (s_diff a2) = lenZ (p_dexp P)) by (rewrite E2; cbn [s_conv s_diff]; now rewrite !lenZ_map).
  assert (I2 : s_ite a2 = s_ite sk) by (rewrite E2; exact Hst).
  set (d1 := run_ops (init_ops m conf) d').
  assert (EF1 : d1 (solution_path (c_out conf) (s_ite sk)) = Some Fl) by (unfold d1; rewrite init_ops_other by lia; exact EF).
  destruct (read_other m D1 D2 types values (solution_path (c_out conf) (s_ite sk)) d1 Fl sk a2 [OpICs U2] F1 F2 Hb EF1 HS HH) as (b0 & ER & St & Si & SU & Sp & Sc & Sd & HB').
  { lia. } { lia. } { exact I2. } { rewrite E2. exact HB2. }
  assert (EIO : io_initial conf m D2 a2 d1 = Ok (b0, [])).
  { unfold io_initial. rewrite I2. destruct (Z.eqb_spec (s_ite sk) 0) as [C|C]; [lia|]. rewrite ER. reflexivity. }
  assert (Hstd : started conf m D2 P types values t0 U2 q2 d' ops2 b0) by (exists a2, []; auto).
  pose proof (X2 _ _ Hstd) as X2'.
  assert (Hfk : fresh m D1 types values sk) by exact (fresh_steps m D1 P types values (convection m D1) vs1 ps1 F1 Hb ops1 k start sk Hf Ek).
  assert (SR : srelw m D1 D2 types values P U1 U2 q1 q2 sk b0).
  { split; [exact St|]. split; [exact Si|]. split; [now apply (vv_same m D1 D2 Hs1 Hs2)|].
    split. { exists 0. split; [auto|]. apply (pp_same m D1 D2 Hs1 Hs2). intros i1 i2 x H1 H2. rewrite (Sp _ _ _ H1 H2). ring. }
    split.
    - destruct Hor as [Hd|[O1 O2]].
      + left. assert (G : forall l l', Forall2 (veq (n_velocity m)) l l' -> Forall2 (vv m D1 D2) l l').
        { intros l l' H. induction H as [|x y l l' Hxy H IH]; constructor; auto. apply (vv_same m D1 D2 Hs1 Hs2). rewrite <- Hd. intros i1 i2 f x0 H1 H2.
          pose proof (layout_range _ _ _ _ F1 H1) as R1. rewrite (layout_unique _ _ _ _ _ F1 H1 H2). apply Hxy. exact R1. }
        split; now apply G.
      + right. rewrite <- (Forall2_lenZ _ _ _ Sc), <- (Forall2_lenZ _ _ _ Sd). lia.
    - exists [OpICs (s_U sk)], [OpICs (s_U b0)]. split; [repeat constructor; exact SU|]. split; [|exact HB']. exact (fresh_history m D1 types values sk U1 B1 F1 Hb Hnc Hfk HB1). }
  assert (Ej : ns_steps m D1 P ops1 (convection m D1) vs1 ps1 j sk = Ok sA).
  { rewrite (steps_add m D1 P ops1 (convection m D1) vs1 ps1 k j start) in EA. rewrite Ek in EA. exact EA. }
  assert (X1' : exact_run m D1 P ops1 (convection m D1) vs1 ps1 sk j).
  { intros i s Hi Es. apply (X1 (k + i)%nat); [lia|]. rewrite (steps_add m D1 P ops1 (convection m D1) vs1 ps1 k i start), Ek. exact Es. }
  destruct (started_total m D2 P types values t0 U2 q2 (convection m D2) conf d' Hs2 Hb ops2 b0 vs2 ps2 j Hstd) as (t' & Et' & _); [intros; eapply convection_total; eauto|].
  assert (Htodo : todo conf b0 = j) by (unfold todo; lia).
  destruct (drive_total m D2 P ops2 (convection m D2) vs2 ps2 conf mon fuel b0 d1) as (s2 & d2 & tr & EDr); [lia|auto|auto|rewrite Htodo; eauto|].
  destruct (drive_inv m D2 P ops2 (convection m D2) vs2 ps2 conf mon fuel b0 d1 s2 d2 tr EDr) as (Es2 & _). rewrite Htodo in Es2.
  destruct (run_rel_from m D1 D2 types values Hs1 Hs2 Hb Hmin Hnn P t0 (c_nstart conf) U1 U2 q1 q2 ops1 ops2 a1 a2 EI1' EI2 HU Hc Hdt Hbn (convection m D1) (convection m D2) vs1 vs2 ps1 ps2 Hcv
    sk b0 j sA s2 SR X1' X2' Ej Es2) as (W & W').
  exists s2. eexists. eexists. split.
  { unfold ns_main. rewrite EI2. cbn [bind]. cbv zeta. fold d1. rewrite EIO. cbn [bind]. change (run_ops [] d1) with d1. rewrite EDr. cbn [bind]. reflexivity. }
  assert (Pq : forall a (y1 y2 : vec), (p_refp P = true -> same_pressure D1 D2 q1 q2 -> a = 0) -> pp m D1 D2 y1 (fun i => y2 i + a) ->
    if p_refp P then same_pressure D1 D2 y1 y2 else same_pressure_up_to_constant D1 D2 y1 y2).
  { intros a y1 y2 Ha H. apply (pp_same m D1 D2 Hs1 Hs2) in H. destruct (p_refp P); [|exists a; exact H]. rewrite (Ha eq_refl Hq) in H. intros i1 i2 x H1 H2. rewrite (H _ _ _ H1 H2). ring. }
  split.
  - destruct W as (Wt & Wi & WU & (a & Ha & Wp) & _). repeat split; auto; [now apply (vv_same m D1 D2 Hs1 Hs2)|eapply Pq; eauto].
  - intros Hd. assert (SR' : srel m D1 D2 types values P U1 U2 q1 q2 sk b0).
    { assert (G : forall l l', Forall2 (veq (n_velocity m)) l l' -> Forall2 (vv m D1 D2) l l').
      { intros l l' H. induction H as [|x y l l' Hxy H IH]; constructor; auto. apply (vv_same m D1 D2 Hs1 Hs2). rewrite <- Hd. intros i1 i2 f x0 H1 H2.
        pose proof (layout_range _ _ _ _ F1 H1) as R1. rewrite (layout_unique _ _ _ _ _ F1 H1 H2). apply Hxy. exact R1. }
      destruct SR as (A1 & A2 & A3 & A4 & _ & A5). repeat (split; [assumption|]). split; [now apply G|]. split; [now apply G|exact A5]. }
    destruct (W' SR') as (Wt & Wi & WU & (a & Ha & Wp) & Wc & Wd & _).
    assert (L : forall l1 l2, Forall2 (vv m D1 D2) l1 l2 -> Forall2 (same_velocity m D1 D2) l1 l2).
    { intros l1 l2 H. induction H; constructor; auto. now apply (vv_same m D1 D2 Hs1 Hs2). }
    repeat split; auto; [now apply (vv_same m D1 D2 Hs1 Hs2)|eapply Pq; eauto].
Qed.
(** The explicit terms of a step, from the two states it starts from. *)
Lemma slots_two n D O conv s r w c0 c1 : rhs_velocity n m D P O conv s = Ok (r, w) -> s_conv s = [c0; c1] ->
  exists g, conv (s_bc s) (s_U s) = Ok g /\ s_conv w = [vscale (-1) g; c0].
Proof.
  intros H E. destruct (rhsvel_slots _ _ _ _ _ _ _ _ _ H) as [H1 _]. rewrite E in H1. change [c0; c1] with (([c0] ++ [c1])%list) in H1. rewrite rotate_ok in H1.
  cbn [bind] in H1. change (0 <? lenZ [c1; c0])%Z with true in H1. cbv iota in H1. apply bind_ok_inv in H1. destruct H1 as (g' & Eg & H1).
  apply bind_ok_inv in Eg. destruct Eg as (g & Eg & E'). injection E' as <-. exists g. split; [exact Eg|]. cbn in H1. now injection H1 as <-.
Qed.
Lemma slots_one n D O conv s r w : rhs_velocity n m D P O conv s = Ok (r, w) -> (lenZ (s_diff s) <= 1)%Z ->
  (s_diff s = [] /\ s_diff w = []) \/
  (exists x c, s_diff s = [x] /\ correction_mult m (nranks D) (o_L O) (s_bc s) = Ok c /\
     s_diff w = [vscale (p_nu P) (vaxpy c 1 (mvec (n_velocity m) (entry (op_log (o_L O))) (s_U s)))]).
Proof.
  intros H L. destruct (rhsvel_slots _ _ _ _ _ _ _ _ _ H) as [_ H1]. destruct (s_diff s) as [|x [|y t]].
  - left. cbn in H1. injection H1 as <-. auto.
  - right. exists x. change [x] with (([] ++ [x])%list) in H1. rewrite rotate_ok in H1. cbn [bind] in H1. change (0 <? lenZ [x])%Z with true in H1. cbv iota in H1.
    apply bind_ok_inv in H1. destruct H1 as (g' & Eg & H1). apply bind_ok_inv in Eg. destruct Eg as (g & Eg & E'). injection E' as <-. exists g. split; [reflexivity|].
    split; [exact Eg|]. cbn in H1. now injection H1 as <-.
  - rewrite !lenZ_cons in L. pose proof (lenZ_nonneg t). lia.
Qed.

(** Two states with the same time, step, velocity and pressure whose next steps
    give the same flow have the same older explicit term. *)
Lemma step_tells n0 ops1 ops2 a1 a2 s1 s2 t1 t2 a b c0 c1 e0 e1 h1 h2 g0 :
  ns_init m D1 P types values t0 n0 U1 q1 = Ok (ops1, a1) -> ns_init m D2 P types values t0 n0 U2 q2 = Ok (ops2, a2) ->
  p_cexp P = [a; b] -> b <> 0 -> vv m D1 D2 (s_U s1) (s_U s2) -> pp m D1 D2 (s_p s1) (fun i => s_p s2 i + g0) ->
  s_conv s1 = [c0; c1] -> s_conv s2 = [e0; e1] -> (lenZ (s_diff s1) <= 1)%Z -> lenZ (s_diff s2) = lenZ (s_diff s1) ->
  Forall2 (same_call m D1 D2) h1 h2 -> boundary_after m D1 types values ([OpICs U1] ++ h1) (s_bc s1) -> boundary_after m D2 types values ([OpICs U2] ++ h2) (s_bc s2) ->
  exact_step m D1 P ops1 (convection m D1) vs1 ps1 s1 -> exact_step m D2 P ops2 (convection m D2) vs2 ps2 s2 ->
  advance m D1 P ops1 (convection m D1) vs1 ps1 s1 = Ok t1 -> advance m D2 P ops2 (convection m D2) vs2 ps2 s2 = Ok t2 ->
  vv m D1 D2 (s_U t1) (s_U t2) -> (exists g, pp m D1 D2 (s_p t1) (fun i => s_p t2 i + g)) -> vv m D1 D2 c0 e0.
Proof.
  intros HI1 HI2 Ece Hb0 SU Sp Ec1 Ec2 Ld1 Ld2 Hh B1 B2 X1 X2 E1 E2 TU (g & Tp).
  destruct (advance_inv _ _ _ _ _ _ _ _ _ E1) as (r1 & w1 & b1 & R1 & P1 & BE1 & _ & EU1 & Ep1 & _).
  destruct (advance_inv _ _ _ _ _ _ _ _ _ E2) as (r2 & w2 & b2 & R2 & P2 & BE2 & _ & EU2 & Ep2 & _).
  destruct (X1 _ _ _ R1 P1) as [SA1 _]. destruct (X2 _ _ _ R2 P2) as [SA2 _].
  pose proof (ops_related m D1 D2 types values Hs1 Hs2 Hb Hmin Hnn P t0 n0 U1 U2 q1 q2 ops1 ops2 a1 a2 HI1 HI2) as OR.
  assert (VP : pp m D1 D2 (ps1 (s_dP s1) b1) (fun i => ps2 (s_dP s2) b2 i + (g - g0))).
  { intros k Hk. specialize (Sp k Hk). specialize (Tp k Hk). rewrite Ep1, Ep2 in Tp. unfold vaxpy in Tp. cbv beta in *. lra. }
  assert (VU : vv m D1 D2 (vs1 (s_U s1) r1) (vs2 (s_U s2) r2)).
  { pose proof (bng_rel_const m D1 D2 types values Hs1 Hs2 Hb Hmin Hnn P t0 n0 U1 U2 q1 q2 ops1 ops2 a1 a2 HI1 HI2 _ _ _ VP) as VB.
    intros k Hk. specialize (TU k Hk). specialize (VB k Hk). rewrite EU1, EU2 in TU. unfold vaxpy in TU. lra. }
  assert (Vr : vv m D1 D2 r1 r2).
  { intros k Hk. destruct (proj1 (numV m D1 F1) k Hk) as [K1 _]. destruct (proj1 (numV m D2 F2) k Hk) as [K2 _]. rewrite <- (SA1 _ K1), <- (SA2 _ K2).
    exact (mr_mvec _ _ _ _ _ _ _ _ _ _ _ _ _ (numV m D1 F1) (numV m D2 F2) (r_A _ _ _ _ _ OR) VU k Hk). }
  destruct (rhs_value _ _ _ _ _ _ _ _ _ R1) as (k1 & K1 & V1). destruct (rhs_value _ _ _ _ _ _ _ _ _ R2) as (k2 & K2 & V2).
  destruct (slots_two _ _ _ _ _ _ _ c0 c1 R1 Ec1) as (m1 & M1 & C1). destruct (slots_two _ _ _ _ _ _ _ e0 e1 R2 Ec2) as (m2 & M2 & C2).
  cbn [s_U s_bc] in M1, M2.
  assert (Vm : vv m D1 D2 m1 m2).
  { apply (vv_same m D1 D2 Hs1 Hs2). refine (Hcv _ _ _ _ _ _ _ _ B1 B2 _ _ (proj2 (vv_same m D1 D2 Hs1 Hs2 _ _) SU) M1 M2).
    - apply (calls_from m D1 D2 U1 U2 HU). exact Hh.
    - exists U1. apply in_or_app. left. now left. }
  assert (Vk : vv m D1 D2 k1 k2).
  { apply (bc_call_inv m D1 types values _ _ _ _ F1 Hb B1) in BE1. apply (bc_call_inv m D2 types values _ _ _ _ F2 Hb B2) in BE2. rewrite <- app_assoc in BE1, BE2.
    refine (lap_corr_rel m D1 D2 types values Hs1 Hs2 Hb Hmin Hnn P t0 n0 U1 U2 q1 q2 ops1 ops2 a1 a2 HI1 HI2 HU _ _ _ _ _ _ _ BE1 BE2 K1 K2).
    apply same_calls_app; auto. constructor. now apply (vv_same m D1 D2 Hs1 Hs2). }
  assert (Vd : forall k, SV m k -> weighted (p_dexp P) (s_diff w1) (iv m D1 k) = weighted (p_dexp P) (s_diff w2) (iv m D2 k)).
  { intros k Hk. destruct (slots_one _ _ _ _ _ _ _ R1 Ld1) as [(Z1 & W1)|(x1 & l1 & Z1 & L1 & W1)]; cbn [s_diff] in Z1;
      (destruct (slots_one _ _ _ _ _ _ _ R2 ltac:(cbn [s_diff]; lia)) as [(Z2 & W2)|(x2 & l2 & Z2 & L2 & W2)]; cbn [s_diff] in Z2);
      rewrite Z1, Z2 in Ld2; try (unfold lenZ in Ld2; cbn in Ld2; lia); rewrite W1, W2; [reflexivity|].
    unfold weighted. change (lenZ [_]) with 1%Z. unfold zsum. apply sumR_ext. intros i Hi. apply zrange_In in Hi. assert (i = 0)%Z as -> by lia.
    destruct (nthZ (p_dexp P) 0); [|reflexivity]. cbn [nthZ]. f_equal. change (nthZ [?x] 0) with (Some x). cbv iota beta.
    assert (Vt : vv m D1 D2 (vaxpy l1 1 (mvec (n_velocity m) (entry (op_log (o_L ops1))) (s_U s1))) (vaxpy l2 1 (mvec (n_velocity m) (entry (op_log (o_L ops2))) (s_U s2)))).
    { apply axpy_rel.
      - exact (mr_mvec _ _ _ _ _ _ _ _ _ _ _ _ _ (numV m D1 F1) (numV m D2 F2) (r_L _ _ _ _ _ OR) SU).
      - exact (lap_corr_rel m D1 D2 types values Hs1 Hs2 Hb Hmin Hnn P t0 n0 U1 U2 q1 q2 ops1 ops2 a1 a2 HI1 HI2 HU _ _ _ _ _ _ Hh B1 B2 L1 L2). }
    cbn [s_U]. unfold vscale. now rewrite (Vt k Hk). }
  intros k Hk. pose proof (grad_rel_const m D1 D2 types values Hs1 Hs2 Hb Hmin Hnn P t0 n0 U1 U2 q1 q2 ops1 ops2 a1 a2 HI1 HI2 _ _ _ Sp k Hk) as VG.
  specialize (Vr k Hk). specialize (SU k Hk). specialize (Vm k Hk). specialize (Vk k Hk). specialize (Vd k Hk).
  rewrite V1, V2 in Vr. cbn [s_U s_p] in Vr. rewrite VG, SU, Vk, Vd, C1, C2, Ece in Vr.
  assert (W : forall x y i, weighted [a; b] [x; y] i = a * x i + b * y i) by (intros x y i; unfold weighted, zsum; cbv -[Rplus Rmult IZR]; lra).
  rewrite !W in Vr. unfold vscale in Vr. rewrite Vm in Vr. apply (Rmult_eq_reg_l b); [lra|exact Hb0].
Qed.
Lemma resume_two ops1 s0 start k sk sA conf fuel mon d' Fl n0 a b c0 c1 :
  ns_init m D1 P types values t0 n0 U1 q1 = Ok (ops1, s0) -> fresh m D1 types values start ->
  lenZ (s_conv start) = lenZ (s_conv s0) -> lenZ (s_diff start) = lenZ (s_diff s0) ->
  ns_steps m D1 P ops1 (convection m D1) vs1 ps1 k start = Ok sk -> ns_steps m D1 P ops1 (convection m D1) vs1 ps1 (k + 1) start = Ok sA ->
  exact_run m D1 P ops1 (convection m D1) vs1 ps1 start (k + 1) ->
  exact_program conf m D2 P types values t0 U2 q2 vs2 ps2 d' 1 ->
  p_cexp P = [a; b] -> b <> 0 -> (lenZ (p_dexp P) <= 1)%Z -> s_conv sk = [c0; c1] ->
  c_nstart conf = s_ite sk -> (0 < s_ite sk)%Z -> c_nt conf = 1%Z -> c_nsave conf <> 0%Z -> c_nrestart conf <> 0%Z -> (1 <= fuel)%nat ->
  d' (solution_path (c_out conf) (s_ite sk)) = Some Fl -> holds_solution m D1 sk Fl -> holds_history m sk Fl ->
  exists s2 d2 tr2, ns_main fuel conf m D2 P types values t0 U2 q2 mon (convection m D2) vs2 ps2 d' = Ok (Some (s2, d2, tr2)) /\
    (same_flow m D1 D2 (p_refp P) sA s2 -> forall i1 i2 f p, nthZ (packed_layout (m_dim m) D1) i1 = Some (f, p) -> nthZ (packed_layout (m_dim m) D2) i2 = Some (f, p) -> c0 i1 = c0 i2).
Proof.
  intros EI1 Hf Lc Ld Ek EA X1 X2 Ece Hbz Hd1 Ec0 Hst Hpos Hnt Hsv Hrs Hfu EF HS HH.
  destruct (init_total m D2 P types values t0 (c_nstart conf) U2 q2 F2 Hb ltac:(lia)) as (ops2 & a2 & EI2).
  destruct (ns_init_step _ _ _ _ _ _ _ (c_nstart conf) _ _ _ _ EI1) as [_ EI1']. set (a1 := mkNS _ _ _ _ _ _ _ _) in EI1'.
  destruct (ns_init_inv _ _ _ _ _ _ _ _ _ _ _ F1 Hb EI1) as (B1 & HB1 & _ & E1). destruct (ns_init_inv _ _ _ _ _ _ _ _ _ _ _ F2 Hb EI2) as (B2 & HB2 & _ & E2).
  destruct (steps_slots m D1 P _ _ _ ops1 _ _ _ Ek) as [Lck Ldk].
  assert (N1 : lenZ (s_conv s0) = lenZ (p_cexp P) /\ lenZ (s_diff s0) = lenZ (p_dexp P)) by (rewrite E1; cbn [s_conv s_diff]; now rewrite !lenZ_map).
  assert (N2 : lenZ (s_conv a2) = lenZ (p_cexp P) /\ lenZ (s_diff a2) = lenZ (p_dexp P)) by (rewrite E2; cbn [s_conv s_diff]; now rewrite !lenZ_map).
  assert (I2 : s_ite a2 = s_ite sk) by (rewrite E2; exact Hst).
  set (d1 := run_ops (init_ops m conf) d').
  assert (EF1 : d1 (solution_path (c_out conf) (s_ite sk)) = Some Fl) by (unfold d1; rewrite init_ops_other by lia; exact EF).
  destruct (read_other m D1 D2 types values (solution_path (c_out conf) (s_ite sk)) d1 Fl sk a2 [OpICs U2] F1 F2 Hb EF1 HS HH) as (b0 & ER & St & Si & SU & Sp & Sc & Sd & HB').
  { lia. } { lia. } { exact I2. } { rewrite E2. exact HB2. }
  assert (EIO : io_initial conf m D2 a2 d1 = Ok (b0, [])).
  { unfold io_initial. rewrite I2. destruct (Z.eqb_spec (s_ite sk) 0) as [C|C]; [lia|]. rewrite ER. reflexivity. }
  assert (Hstd : started conf m D2 P types values t0 U2 q2 d' ops2 b0) by (exists a2, []; auto).
  pose proof (X2 _ _ Hstd) as X2'.
  assert (Hfk : fresh m D1 types values sk) by exact (fresh_steps m D1 P types values (convection m D1) vs1 ps1 F1 Hb ops1 k start sk Hf Ek).
  assert (Ej : ns_steps m D1 P ops1 (convection m D1) vs1 ps1 1 sk = Ok sA).
  { rewrite (steps_add m D1 P ops1 (convection m D1) vs1 ps1 k 1 start) in EA. rewrite Ek in EA. exact EA. }
  destruct (started_total m D2 P types values t0 U2 q2 (convection m D2) conf d' Hs2 Hb ops2 b0 vs2 ps2 1 Hstd) as (t' & Et' & _); [intros; eapply convection_total; eauto|].
  assert (Htodo : todo conf b0 = 1%nat) by (unfold todo; lia).
  destruct (drive_total m D2 P ops2 (convection m D2) vs2 ps2 conf mon fuel b0 d1) as (s2 & d2 & tr & EDr); [lia|auto|auto|rewrite Htodo; eauto|].
  destruct (drive_inv m D2 P ops2 (convection m D2) vs2 ps2 conf mon fuel b0 d1 s2 d2 tr EDr) as (Es2 & _). rewrite Htodo in Es2.
  exists s2. eexists. eexists. split.
  { unfold ns_main. rewrite EI2. cbn [bind]. cbv zeta. fold d1. rewrite EIO. cbn [bind]. change (run_ops [] d1) with d1. rewrite EDr. cbn [bind]. reflexivity. }
  intros (_ & _ & WU & Wp) i1 i2 f p H1 H2. rewrite Ec0 in Sc.
  assert (Q : exists e0 e1, s_conv b0 = [e0; e1] /\ veq (n_velocity m) c0 e0).
  { destruct (s_conv b0) as [|e0 [|e1 [|? ?]]]; inversion Sc as [|? ? ? ? V0 Sc1]; inversion Sc1 as [|? ? ? ? _ Sc2]; inversion Sc2. eauto. }
  destruct Q as (e0 & e1 & Eb & V0).
  assert (G : vv m D1 D2 c0 e0).
  { cbn [ns_steps bind] in Ej, Es2. apply (step_tells (c_nstart conf) ops1 ops2 a1 a2 sk b0 sA s2 a b c0 c1 e0 e1 [OpICs (s_U sk)] [OpICs (s_U b0)] 0 EI1' EI2 Ece Hbz); auto.
    - now apply (vv_same m D1 D2 Hs1 Hs2).
    - apply (pp_same m D1 D2 Hs1 Hs2). intros j1 j2 x J1 J2. rewrite (Sp _ _ _ J1 J2). ring.
    - lia.
    - symmetry. exact (Forall2_lenZ _ _ _ Sd).
    - repeat constructor. exact SU.
    - exact (fresh_history m D1 types values sk U1 B1 F1 Hb Hnc Hfk HB1).
    - apply (X1 k); [lia|exact Ek].
    - apply (X2' 0%nat); [lia|reflexivity].
    - now apply (vv_same m D1 D2 Hs1 Hs2).
    - destruct (p_refp P).
      + exists 0. apply (pp_same m D1 D2 Hs1 Hs2). intros j1 j2 x J1 J2. rewrite (Wp _ _ _ J1 J2). ring.
      + destruct Wp as (g & Wp). exists g. now apply (pp_same m D1 D2 Hs1 Hs2). }
  apply (vv_same m D1 D2 Hs1 Hs2) in G. rewrite (G _ _ _ _ H1 H2). symmetry. apply V0. exact (layout_range m D2 i2 _ F2 H2).
Qed.
End Resume.
