(** C81, the cases: two bodies whose forces change places, and runs that are resumed. *)
From Coq Require Import Lia ZifyBool String List.
Import ListNotations.
From Verif Require Import Prelude ZSum RSum TypesModel GridModel GridSpec GridProof GridProps MeshProof
  IndexModel IndexSpec IndexProof BoundaryModel BoundarySpec BoundaryProof OperatorModel OperatorSpec OperatorProof BStateProof LapProof DivProof GradProof
  AdjProof SymProof MatModel BnModel NSModel NSSpec NSProof NSPin BnSpec BnProof LinAlg UniqueProof ConvModel ConvSpec EnergySpec EnergyProof EnergyRun
  NameModel DriverModel DriverSpec DriverProof DriveProof RestartProof DriverProps
  BodyModel BodySpec BodyProof BodyProps DeltaModel DeltaSpec DeltaKernel DeltaProof DeltaSum DeltaProps IbpmModel IbpmSpec IbpmProof IbpmStep IbpmDec IbpmMove IbpmProps MoveProps
  DecSpec DecProof DecConv ResumeSpec ResumeProof ConfigInit IbOutDrive IbOutLines IbOutModel IbOutSpec IbOutBalance IbOutProps SimProps IndepSpec IndepProof IndepRun ExampleSetup IndepCase IndepProps IbGridSpec IbGridProof IbGridRun IbGridProps
  IbOutProof IbOutDec IbResumeSpec IbResumeDrive IbResumeProof IbResumeMain IbResumeTotal IbResumeCase IbResumeProps.
Local Open Scope R_scope.
(** * When the places differ *)
(** Two bodies of two points each, on two ranks and on one: on two ranks the
    distributed vector holds the first points of both bodies, then the second
    points; on one rank it holds the first body, then the second. *)
Definition quad (size : Z) : list (body * list (list R)) := [(default_body size 2, [[2; 2]; [6; 2]]); (default_body size 2, [[2; 6]; [6; 6]])].
Lemma quad_rows2 : body_layout (nranks (un_dec false false)) (m_dim (un_mesh false false)) (map fst (quad 2)) =
  [(0, 0, 0); (0, 0, 1); (1, 0, 0); (1, 0, 1); (0, 1, 0); (0, 1, 1); (1, 1, 0); (1, 1, 1)]%Z.
Proof. reflexivity. Qed.
Lemma quad_rows1 : body_layout (nranks solo_dec) (m_dim (un_mesh false false)) (map fst (quad 1)) =
  [(0, 0, 0); (0, 0, 1); (0, 1, 0); (0, 1, 1); (1, 0, 0); (1, 0, 1); (1, 1, 0); (1, 1, 1)]%Z.
Proof. reflexivity. Qed.
Lemma quad_ok2 : bodies_ok (un_mesh false false) (un_dec false false) (quad 2).
Proof.
  unfold bodies_ok. rewrite un_dim. replace (nranks (un_dec false false)) with 2%Z by reflexivity. split.
  - split; [lia|]. split; [lia|]. assert (Q : spread 2 (default_body 2 2)) by (apply default_distribution; lia). exact (Forall_cons _ Q (Forall_cons _ Q (Forall_nil _))).
  - repeat constructor; auto.
Qed.
Lemma quad_ok1 : bodies_ok (un_mesh false false) solo_dec (quad 1).
Proof.
  unfold bodies_ok. rewrite un_dim. replace (nranks solo_dec) with 1%Z by reflexivity. split.
  - split; [lia|]. split; [lia|]. assert (Q : spread 1 (default_body 1 2)) by (apply default_distribution; lia). exact (Forall_cons _ Q (Forall_cons _ Q (Forall_nil _))).
  - repeat constructor; auto.
Qed.
Lemma quad_located n b i X : located (quad n) b i X ->
  (b = 0%Z /\ i = 0%Z /\ X = [2; 2]) \/ (b = 0%Z /\ i = 1%Z /\ X = [6; 2]) \/ (b = 1%Z /\ i = 0%Z /\ X = [2; 6]) \/ (b = 1%Z /\ i = 1%Z /\ X = [6; 6]).
Proof.
  intros (bc & Eb & EP). pose proof (nthZ_Some_range _ _ _ Eb) as Hr. change (lenZ (quad n)) with 2%Z in Hr.
  assert (b = 0 \/ b = 1)%Z as [->| ->] by lia; injection Eb as <-; cbn [snd] in EP; pose proof (nthZ_Some_range _ _ _ EP) as Hi; (match type of Hi with (0 <= _ < ?l)%Z => change l with 2%Z in Hi end);
    assert (i = 0 \/ i = 1)%Z as [->| ->] by lia; injection EP as <-; auto 6.
Qed.
Lemma quad_ranks2 b bc r : nthZ (quad 2) b = Some bc -> (0 <= r < nranks (un_dec false false))%Z -> (0 < b_l (fst bc) r)%Z.
Proof.
  intros Eb Hr. pose proof (nthZ_Some_range _ _ _ Eb) as Hb. change (lenZ (quad 2)) with 2%Z in Hb. replace (nranks (un_dec false false)) with 2%Z in Hr by reflexivity.
  assert (b = 0 \/ b = 1)%Z as [->| ->] by lia; injection Eb as <-; assert (r = 0 \/ r = 1)%Z as [->| ->] by lia; reflexivity.
Qed.
Lemma quad_ranks1 b bc r : nthZ (quad 1) b = Some bc -> (0 <= r < nranks solo_dec)%Z -> (0 < b_l (fst bc) r)%Z.
Proof.
  intros Eb Hr. pose proof (nthZ_Some_range _ _ _ Eb) as Hb. change (lenZ (quad 1)) with 2%Z in Hb. replace (nranks solo_dec) with 1%Z in Hr by reflexivity.
  assert (b = 0 \/ b = 1)%Z as [->| ->] by lia; injection Eb as <-; assert (r = 0)%Z as -> by lia; reflexivity.
Qed.
Lemma quad_far n name K w : getKernel name = Ok (K, w) -> far_apart (un_mesh false false) unit_h (radius name) (quad n).
Proof.
  intros HK b i X b' i' X' Hl Hl' Hne. assert (radius name <= 2) by (destruct (getKernel_cases _ _ _ HK) as [(_ & _ & _ & ->)|(_ & _ & _ & ->)]; lra).
  apply quad_located in Hl. apply quad_located in Hl'. rewrite un_dim. unfold unit_h.
  destruct Hl as [(-> & -> & ->)|[(-> & -> & ->)|[(-> & -> & ->)|(-> & -> & ->)]]], Hl' as [(-> & -> & ->)|[(-> & -> & ->)|[(-> & -> & ->)|(-> & -> & ->)]]]; try (exfalso; apply Hne; reflexivity).
  all: try (exists 0%Z; split; [lia|]; rewrite !xc0; first [rewrite Rabs_left by lra|rewrite Rabs_right by lra]; lra).
  all: exists 1%Z; split; [lia|]; rewrite !xc1; first [rewrite Rabs_left by lra|rewrite Rabs_right by lra]; lra.
Qed.
Lemma quad_clear n name K w : getKernel name = Ok (K, w) -> forall b i X, located (quad n) b i X -> clear (un_mesh false false) unit_h (radius name) X.
Proof.
  intros HK b i X Hl d Hd. assert (radius name <= 2) by (destruct (getKernel_cases _ _ _ HK) as [(_ & _ & _ & ->)|(_ & _ & _ & ->)]; lra).
  rewrite un_dim in Hd. destruct (un_box false false d) as [-> ->]. unfold unit_h. apply quad_located in Hl.
  destruct Hl as [(_ & _ & ->)|[(_ & _ & ->)|[(_ & _ & ->)|(_ & _ & ->)]]]; assert (d = 0 \/ d = 1)%Z as [->| ->] by lia; rewrite ?xc0, ?xc1; lra.
Qed.
Lemma quad_reach n w : forall b i X, located (quad n) b i X -> inside_domain (un_mesh false false) X /\ in_reach (un_mesh false false) (un_types false false) w X.
Proof.
  intros b i X Hl. apply quad_located in Hl. split.
  - intros d Hd. rewrite un_dim in Hd. destruct (un_box false false d) as [-> ->]. destruct Hl as [(_ & _ & ->)|[(_ & _ & ->)|[(_ & _ & ->)|(_ & _ & ->)]]]; assert (d = 0 \/ d = 1)%Z as [->| ->] by lia; rewrite ?xc0, ?xc1; lra.
  - intros d k Hd Ht. exfalso. unfold un_types in Ht. destruct (d <? 2)%Z; discriminate Ht.
Qed.

(** Solvers that solve the systems of the decoupled program exist. *)
Lemma d_init_again m D P types values name bs t0 U0 p0 n n' O X x0 O' X' x0' : d_init m D P types values name bs t0 n U0 p0 = Ok (O, X, x0) -> d_init m D P types values name bs t0 n' U0 p0 = Ok (O', X', x0') -> O' = O /\ X' = X.
Proof.
  intros E E'. destruct (e_init_any m D P types values name bs t0 U0 p0 n (O, X) x0 E) as [_ Q]. destruct (Q n') as (y & Ey). unfold e_init in Ey. rewrite E' in Ey. injection Ey as <- <- _. auto.
Qed.
Lemma exact_decoupled_solvers m D P types values name bs t0 U0 p0 n O X x0 : mesh_setup m D -> bodies_ok m D bs -> d_init m D P types values name bs t0 n U0 p0 = Ok (O, X, x0) ->
  exists vs ps fs, forall n' O' X' x0', d_init m D P types values name bs t0 n' U0 p0 = Ok (O', X', x0') ->
    exact_solver (n_velocity m) (o_A O') vs /\ exact_solver (n_pressure m) (o_DBNG O') ps /\ exact_solver (n_forces m bs) (di_EBNH X') fs.
Proof.
  intros Hs Hbo HI. destruct (exact_exists (n_velocity m) (o_A O) (nv_nonneg m D Hs)) as (vs & Hv).
  destruct (exact_exists (n_pressure m) (o_DBNG O) ltac:(pose proof (np_pos m D Hs); lia)) as (ps & Hp).
  destruct (exact_exists (n_forces m bs) (di_EBNH X) (nf_nonneg m D bs Hbo)) as (fs & Hf). exists vs, ps, fs. intros n' O' X' x0' E. destruct (d_init_again _ _ _ _ _ _ _ _ _ _ _ _ _ _ _ _ _ _ HI E) as [-> ->]. auto.
Qed.
Lemma starts m D P types values name bs K w t0 n U0 p0 : mesh_setup m D -> bc_fits m types -> bodies_ok m D bs -> getKernel name = Ok (K, w) -> (1 <= p_bn P)%Z ->
  (forall b i X, located bs b i X -> inside_domain m X /\ in_reach m types w X) -> (forall b bc r, nthZ bs b = Some bc -> (0 <= r < nranks D)%Z -> (0 < b_l (fst bc) r)%Z) ->
  exists O X x0, d_init m D P types values name bs t0 n U0 p0 = Ok (O, X, x0).
Proof.
  intros Hs Hb Hbo HK Hn Hin Hrk. destruct (decoupled_never_fails m D P types values name bs K w (convection m D) (fun _ _ _ => 0) (fun _ _ _ => 0) (fun _ _ _ => 0) t0 n U0 p0 0%nat Hs Hb Hbo HK Hn Hin Hrk) as (O & X & x0 & _ & HI & _); eauto.
  intros h B x HB. exact (convection_total m D _ _ _ B x Hs Hb HB).
Qed.
(** The operators of the bodies do not depend on the flow. *)
Lemma spread_any m D P types values name bs t0 n n' U0 U0' p0 p0' O X x0 O' X' x0' : mesh_setup m D -> bc_fits m types -> d_init m D P types values name bs t0 n U0 p0 = Ok (O, X, x0) -> d_init m D P types values name bs t0 n' U0' p0' = Ok (O', X', x0') ->
  di_H X' = di_H X.
Proof.
  intros Hs Hb E E'. destruct (d_init_inv m D P types values Hs Hb _ _ _ _ _ _ _ _ _ E) as (B & HB & _ & EX & _). destruct (d_init_inv m D P types values Hs Hb _ _ _ _ _ _ _ _ _ E') as (B' & HB' & _ & EX' & _).
  rewrite (extra_same m D P types values _ B' _ B O' name bs (setup_facts _ _ Hs) Hb HB' HB) in EX'.
  destruct (extra_inv _ _ _ _ _ _ _ _ EX) as (a & h & b & Ea & _ & ->). destruct (extra_inv _ _ _ _ _ _ _ _ EX') as (a' & h' & b' & Ea' & _ & ->). rewrite Ea in Ea'. injection Ea' as <- <-. reflexivity.
Qed.

(** Forces that keep their places: after one step from a suitable velocity the
    force at place r is r, on the first grid and in the resumed run. *)
Lemma forces_keep_places m D1 D2 types values name K w bs1 bs2 refp :
  let P := mkPar (1/100) 1 1 [] 0 [] refp in let z := fun _ : Z => 0 in
  let conf1 := mkConf "o" "l" 0 1 1 1 in let conf2 := mkConf "o" "l" 1 0 1 1 in let mon := fun _ : dstate => @nil fsop in
  mesh_setup m D1 -> mesh_setup m D2 -> bc_fits m types -> bodies_ok m D1 bs1 -> bodies_ok m D2 bs2 -> same_points bs1 bs2 -> getKernel name = Ok (K, w) ->
  periodic_min m 3 -> no_normal_neumann m types -> undriven m types values ->
  (forall b i X, located bs1 b i X -> inside_domain m X /\ in_reach m types w X) -> (forall b bc r, nthZ bs1 b = Some bc -> (0 <= r < nranks D1)%Z -> (0 < b_l (fst bc) r)%Z) ->
  (forall b i X, located bs2 b i X -> inside_domain m X /\ in_reach m types w X) -> (forall b bc r, nthZ bs2 b = Some bc -> (0 <= r < nranks D2)%Z -> (0 < b_l (fst bc) r)%Z) ->
  (forall U1, program_felt m D1 P types values name bs1 0 U1 z) ->
  exists U1 U2 vs1 ps1 fs1 vs2 ps2 fs2 s1 d1 ls1 sB dB ls2,
    same_velocity m D1 D2 U1 U2 /\
    exact_decoupled_program conf1 m D1 P types values name bs1 0 U1 z vs1 ps1 fs1 dsk0 1 /\ exact_decoupled_program conf2 m D2 P types values name bs2 0 U2 z vs2 ps2 fs2 d1 0 /\
    d_main 1 conf1 m D1 P types values name bs1 0 U1 z mon (convection m D1) vs1 ps1 fs1 dsk0 = Ok (Some (s1, d1, ls1)) /\
    d_main 1 conf2 m D2 P types values name bs2 0 U2 z mon (convection m D2) vs2 ps2 fs2 d1 = Ok (Some (sB, dB, ls2)) /\
    (forall r u, nthZ (body_layout (nranks D1) (m_dim m) (map fst bs1)) r = Some u -> x_f s1 r = IZR r) /\
    (forall r u u', nthZ (body_layout (nranks D1) (m_dim m) (map fst bs1)) r = Some u -> nthZ (body_layout (nranks D2) (m_dim m) (map fst bs2)) r = Some u' -> x_f sB r = IZR r).
Proof.
  intros P z conf1 conf2 mon Hs1 Hs2 Hb Hbo1 Hbo2 Hsm HK Hmin Hneu Hun Hin1 Hrk1 Hin2 Hrk2 Hff.
  assert (Hdt : 0 < p_dt P) by (cbn; lra). assert (Hc : 0 <= p_dimp P * p_nu P) by (cbn; lra).
  destruct (starts m D1 P types values name bs1 K w 0 0%Z z z Hs1 Hb Hbo1 HK ltac:(cbn; lia) Hin1 Hrk1) as (Oz & Xz & xz & HIz).
  set (nf := n_forces m bs1). set (U1 := fun i => - (1/100 * mvec nf (di_H Xz) IZR i)).
  set (U2 := stored_velocity m D2 (fun f p => U1 (idx m D1 f p))).
  assert (HU : same_velocity m D1 D2 U1 U2).
  { intros i1 i2 f x E1 E2. unfold U2, stored_velocity. rewrite E2. f_equal. pose proof (setup_facts _ _ Hs1) as F.
    destruct (layout_interior m D1 i1 f x F E1) as [Hf Hx]. symmetry. exact (ResumeProof.layout_unique m D1 i1 (idx m D1 f x) (f, x) F E1 (proj2 (idx_spec m D1 f x F Hf Hx))). }
  destruct (starts m D1 P types values name bs1 K w 0 0%Z U1 z Hs1 Hb Hbo1 HK ltac:(cbn; lia) Hin1 Hrk1) as (O1 & X1 & x1 & HI1).
  destruct (starts m D2 P types values name bs2 K w 0 0%Z U2 z Hs2 Hb Hbo2 HK ltac:(cbn; lia) Hin2 Hrk2) as (O2 & X2 & x2 & HI2).
  destruct (exact_decoupled_solvers _ _ _ _ _ _ _ _ _ _ _ _ _ _ Hs1 Hbo1 HI1) as (vs1 & ps1 & fs1 & S1). destruct (exact_decoupled_solvers _ _ _ _ _ _ _ _ _ _ _ _ _ _ Hs2 Hbo2 HI2) as (vs2 & ps2 & fs2 & S2).
  destruct (proj1 (proj2 (ib_simulations_complete m D1 P types values name bs1 0 U1 z vs1 ps1 fs1 (mkMotion (fun _ c => Ok c) (fun _ v => Ok v)) (fun _ => []) (fun _ _ _ _ => 0) (fun _ => fs1) K w conf1 1%nat dsk0 Hs1 Hb Hbo1 HK ltac:(cbn; lia) Hin1 Hrk1 eq_refl ltac:(discriminate) ltac:(discriminate) ltac:(cbn; lia))) mon)
    as (s1 & d1 & ls1 & H1).
  assert (XA : exact_decoupled_program conf1 m D1 P types values name bs1 0 U1 z vs1 ps1 fs1 dsk0 1) by exact (decoupled_program_exact m D1 P types values name bs1 0 U1 z Hs1 Hb Hbo1 Hmin Hneu Hun eq_refl Hdt Hc vs1 ps1 conf1 dsk0 1%nat fs1 S1).
  assert (XB : exact_decoupled_program conf2 m D2 P types values name bs2 0 U2 z vs2 ps2 fs2 d1 0) by exact (decoupled_program_exact m D2 P types values name bs2 0 U2 z Hs2 Hb Hbo2 Hmin Hneu Hun eq_refl Hdt Hc vs2 ps2 conf2 d1 0%nat fs2 S2).
  assert (Hm : writes_elsewhere (c_out conf1) mon) by (intros s o n []).
  destruct (decoupled_resumable m D1 D2 P types values name bs1 bs2 K w 0 U1 U2 z z Hs1 Hs2 Hb Hbo1 Hbo2 Hsm HK ltac:(cbn; lia) Hin2 Hrk2 conf1 conf2 1%nat 0%nat 1%nat 1%nat dsk0 eq_refl ltac:(cbn; lia) eq_refl ltac:(lia) eq_refl eq_refl ltac:(exists 1%Z; reflexivity) (or_intror eq_refl) ltac:(discriminate) ltac:(discriminate) ltac:(lia)
    vs1 ps1 vs2 ps2 fs1 fs2 mon mon s1 d1 ls1 Hm H1) as (sB & dB & ls2 & HB).
  (* The forces of run 1. *)
  assert (V1 : forall r, (0 <= r < nf)%Z -> x_f s1 r = IZR r).
  { pose proof H1 as H1'. rewrite d_main_is in H1'. destruct (g_main_inv _ _ _ _ _ _ _ _ _ _ _ _ _ _ _ H1') as ([O X] & y0 & y1 & wA & E1 & E2 & E3). unfold e_init in E1.
    pose proof (XA O X y0 y1 wA E1 E2) as Al.
    assert (Ey : y1 = y0). { unfold io_initial_with in E2. destruct (e_init_any m D1 P types values name bs1 0 U1 z _ (O, X) _ E1) as [Hi _]. rewrite Hi in E2. cbn [Z.eqb conf1 c_nstart] in E2. injection E2 as <- _. reflexivity. }
    subst y1. destruct (f_drive_inv _ _ _ _ _ (e_ite m D1 P _ vs1 ps1 _ _ _ _ _) conf1 mon _ _ _ _ _ _ E3) as (R1 & _).
    assert (NL : nleft x_ite conf1 y0 = 1%nat). { unfold nleft. destruct (e_init_any m D1 P types values name bs1 0 U1 z _ (O, X) _ E1) as [-> _]. reflexivity. }
    rewrite NL in R1. cbn [run_steps bind] in R1. unfold e_step in R1.
    apply (first_forces m D1 (1/100) 1 refp types values name bs1 0 0%Z U1 O X y0 vs1 ps1 fs1 IZR s1 Hs1 Hb Hbo1 ltac:(lra) E1 (Hff U1 _ _ _ _ E1)).
    - intros i Hi. unfold U1. now rewrite (spread_any _ _ _ _ _ _ _ _ _ _ _ _ _ _ _ _ _ _ _ _ Hs1 Hb HIz E1).
    - exact (Al 0%nat y0 ltac:(lia) eq_refl).
    - exact R1. }
  (* The forces that the resumed run reads. *)
  assert (VB : forall row b i c b' i' c', nthZ (body_layout (nranks D1) (m_dim m) (map fst bs1)) row = Some (b, i, c) -> nthZ (body_layout (nranks D2) (m_dim m) (map fst bs2)) row = Some (b', i', c') -> x_f sB row = x_f s1 row).
  { pose proof HB as HB'. rewrite d_main_is in HB'. destruct (g_main_inv _ _ _ _ _ _ _ _ _ _ _ _ _ _ _ HB') as ([O X] & y0 & y1 & wA & E1 & E2 & E3). unfold e_init in E1.
    destruct (f_drive_inv _ _ _ _ _ (e_ite m D2 P _ vs2 ps2 _ _ _ _ _) conf2 mon _ _ _ _ _ _ E3) as (R1 & _).
    assert (Iy : x_ite y1 = 1%Z). { destruct (e_init_any m D2 P types values name bs2 0 U2 z _ (O, X) _ E1) as [Hi _]. refine (eq_trans _ Hi). exact (io_inv x_ite (fun _ : unit => d_write_solution m D2) (fun _ : unit => d_read_restart m D2 (n_forces m bs2)) (fun _ => e_rite m D2 _) tt conf2 y0 _ y1 wA E2). }
    assert (NL : nleft x_ite conf2 y1 = 0%nat) by (unfold nleft; rewrite Iy; reflexivity). rewrite NL in R1. injection R1 as <-.
    intros row b i c b' i' c' L1 L2.
    exact (restart_moves_forces m D1 D2 P types values name bs1 bs2 0 U1 U2 z z vs1 ps1 fs1 mon conf1 conf2 1%nat dsk0 s1 d1 ls1 1%nat Hs1 Hs2 Hb Hbo1 Hbo2 Hsm eq_refl ltac:(cbn; lia) Hm eq_refl ltac:(lia) eq_refl ltac:(exists 1%Z; reflexivity) (or_intror eq_refl) H1 O X y0 y1 wA E1 E2 row b i c b' i' c' L1 L2). }
  assert (VR : forall r u, nthZ (body_layout (nranks D1) (m_dim m) (map fst bs1)) r = Some u -> x_f s1 r = IZR r).
  { intros r u L. apply V1. apply nthZ_Some_range in L. now rewrite (body_layout_len (nranks D1) (m_dim m) (map fst bs1)) in L by apply Hbo1. }
  exists U1, U2, vs1, ps1, fs1, vs2, ps2, fs2, s1, d1, ls1, sB, dB, ls2.
  split; [exact HU|]. split; [exact XA|]. split; [exact XB|]. split; [exact H1|]. split; [exact HB|]. split; [exact VR|].
  intros r [[b i] c] [[b' i'] c'] L L'. rewrite (VB r b i c b' i' c' L L'). exact (VR r _ L).
Qed.

(** That any run of the decoupled solver can be resumed on another process grid
    is false: the two bodies above, on two ranks for one step, then resumed on
    one rank. Every hypothesis of [decoupled_restart_other_grid] but the one on
    the places holds, and no force is lost; the resumed program starts with the
    force of one point at another. *)
Theorem restart_other_places_refuted : forall name K w refp, getKernel name = Ok (K, w) ->
  let m := un_mesh false false in let D1 := un_dec false false in let D2 := solo_dec in let bs1 := quad 2 in let bs2 := quad 1 in
  let P := mkPar (1/100) 1 1 [] 0 [] refp in let types := un_types false false in let values := fun _ _ => 0 in let z := fun _ : Z => 0 in
  let conf1 := mkConf "o" "l" 0 1 1 1 in let conf2 := mkConf "o" "l" 1 0 1 1 in let mon := fun _ : dstate => @nil fsop in
  nranks D1 = 2%Z /\ nranks D2 = 1%Z /\ mesh_setup m D1 /\ mesh_setup m D2 /\ bc_fits m types /\ bodies_ok m D1 bs1 /\ bodies_ok m D2 bs2 /\ same_points bs1 bs2 /\
  uniform_around m unit_h w bs1 /\ wide_enough m w /\ periodic_min m 3 /\ impermeable m types values /\ no_convective m types /\ one_level P /\
  (forall b i X, located bs1 b i X -> inside_domain m X /\ in_reach m types w X) /\
  (forall b bc r, nthZ bs2 b = Some bc -> (0 <= r < nranks D2)%Z -> (0 < b_l (fst bc) r)%Z) /\
  exists U1 U2 vs1 ps1 fs1 vs2 ps2 fs2 s1 d1 ls1 sB dB ls2,
    same_velocity m D1 D2 U1 U2 /\ program_felt m D1 P types values name bs1 0 U1 z /\
    exact_decoupled_program conf1 m D1 P types values name bs1 0 U1 z vs1 ps1 fs1 dsk0 1 /\ exact_decoupled_program conf2 m D2 P types values name bs2 0 U2 z vs2 ps2 fs2 d1 0 /\
    d_main 1 conf1 m D1 P types values name bs1 0 U1 z mon (convection m D1) vs1 ps1 fs1 dsk0 = Ok (Some (s1, d1, ls1)) /\
    d_main 1 conf2 m D2 P types values name bs2 0 U2 z mon (convection m D2) vs2 ps2 fs2 d1 = Ok (Some (sB, dB, ls2)) /\
    nthZ (body_layout (nranks D1) (m_dim m) (map fst bs1)) 4 = Some (0, 1, 0)%Z /\ x_f s1 4%Z = 4 /\
    nthZ (body_layout (nranks D2) (m_dim m) (map fst bs2)) 2 = Some (0, 1, 0)%Z /\ x_f sB 2%Z = 2 /\
    ~ same_forces m D1 D2 bs1 bs2 (x_f s1) (x_f sB).
Proof.
  intros name K w refp HK m D1 D2 bs1 bs2 P types values z conf1 conf2 mon.
  pose proof (un_setup false false : mesh_setup m D1) as Hs1. pose proof (solo_setup : mesh_setup m D2) as Hs2. pose proof (un_fits false false : bc_fits m types) as Hb.
  pose proof (quad_ok2 : bodies_ok m D1 bs1) as Hbo1. pose proof (quad_ok1 : bodies_ok m D2 bs2) as Hbo2.
  assert (W : (w <= 3)%Z) by (destruct (getKernel_cases _ _ _ HK) as [(_ & _ & -> & _)|(_ & _ & -> & _)]; lia).
  assert (Hu : uniform_around m unit_h w bs1) by (apply (uniform_is_around m D1 unit_h w _ Hs1), un_uniform).
  assert (Hmin : periodic_min m 3) by (apply un_min; lia).
  assert (Hnc : no_convective m types) by (intros f loc _ _; unfold types, un_types; destruct (loc <? 2)%Z; discriminate).
  assert (H1l : one_level P) by (split; unfold P, lenZ; cbn; lia).
  split; [reflexivity|]. split; [reflexivity|]. split; [exact Hs1|]. split; [exact Hs2|]. split; [exact Hb|]. split; [exact Hbo1|]. split; [exact Hbo2|]. split; [reflexivity|].
  split; [exact Hu|]. split; [now apply un_wide|]. split; [exact Hmin|]. split; [exact un_impermeable|]. split; [exact Hnc|]. split; [exact H1l|].
  split; [apply quad_reach|]. split; [apply quad_ranks1|].
  assert (Hff : forall U1, program_felt m D1 P types values name bs1 0 U1 z).
  { intros U1 n O X x0 HI. destruct (d_init_inv m D1 P types values Hs1 Hb _ _ _ _ _ _ _ _ _ HI) as (B & HB' & _ & EX & _).
    apply (far_apart_points_are_felt m D1 P types values O name bs1 unit_h K w _ B X Hs1 Hu Hbo1 HK Hb HB' (un_wide false false w W)); [apply (quad_clear 2 name K w HK)|apply (quad_far 2 name K w HK)|exact EX]. }
  destruct (forces_keep_places m D1 D2 types values name K w bs1 bs2 refp Hs1 Hs2 Hb Hbo1 Hbo2 eq_refl HK Hmin un_no_neumann un_undriven (quad_reach 2 w) quad_ranks2 (quad_reach 1 w) quad_ranks1 Hff)
    as (U1 & U2 & vs1 & ps1 & fs1 & vs2 & ps2 & fs2 & s1 & d1 & ls1 & sB & dB & ls2 & HU & XA & XB & H1 & HB & V1 & V2).
  assert (L1 : nthZ (body_layout (nranks D1) (m_dim m) (map fst bs1)) 4 = Some (0, 1, 0)%Z) by exact (f_equal (fun l => nthZ l 4%Z) quad_rows2).
  assert (L2 : nthZ (body_layout (nranks D2) (m_dim m) (map fst bs2)) 2 = Some (0, 1, 0)%Z) by exact (f_equal (fun l => nthZ l 2%Z) quad_rows1).
  assert (L3 : nthZ (body_layout (nranks D1) (m_dim m) (map fst bs1)) 2 = Some (1, 0, 0)%Z) by exact (f_equal (fun l => nthZ l 2%Z) quad_rows2).
  exists U1, U2, vs1, ps1, fs1, vs2, ps2, fs2, s1, d1, ls1, sB, dB, ls2.
  split; [exact HU|]. split; [exact (Hff U1)|]. split; [exact XA|]. split; [exact XB|]. split; [exact H1|]. split; [exact HB|]. split; [exact L1|]. split; [exact (V1 4%Z _ L1)|]. split; [exact L2|]. split; [exact (V2 2%Z _ _ L3 L2)|].
  intros Hsf. pose proof (Hsf 4 2 (0, 1, 0) L1 L2)%Z as Q. rewrite (V1 4%Z _ L1), (V2 2%Z _ _ L3 L2) in Q. lra.
Qed.
Print Assumptions restart_other_places_refuted.

(** * Runs that are resumed *)
(** Five steps at once, or three steps and, on the other grid, two more. *)
Definition whole := mkConf "o" "l" 0 5 1 3.
Definition first_part := mkConf "o" "l" 0 3 1 3.
Definition second_part := mkConf "o" "l" 3 2 1 1.
Section Resumed.
Context (m : mesh) (D1 D2 : dec) (P : nspar) (types : Z -> Z -> bctype) (values : Z -> Z -> R) (name : string) (bs1 bs2 : list (body * list (list R))) (h : Z -> R) (K : kernel) (w : Z) (U1 U2 q1 q2 : vec).
Context (mo : motion) (pos : R -> list (list (list R))) (vel : R -> Z -> Z -> Z -> R).
Hypotheses (Hs1 : mesh_setup m D1) (Hs2 : mesh_setup m D2) (Hb : bc_fits m types) (Hbo1 : bodies_ok m D1 bs1) (Hbo2 : bodies_ok m D2 bs2) (Hsm : same_points bs1 bs2) (Hord : same_order m D1 D2 bs1 bs2)
  (HK : getKernel name = Ok (K, w)) (Hw : wide_enough m w) (Hu : forall bs, uniform_around m h w bs) (Hmin : periodic_min m 3) (Himp : impermeable m types values) (Hnc : no_convective m types) (Hun : undriven m types values)
  (Hbn : p_bn P = 1%Z) (Hdt : 0 < p_dt P) (Hc : 0 <= p_dimp P * p_nu P) (H1l : one_level P) (HU : same_velocity m D1 D2 U1 U2)
  (Hin : forall b i X, located bs1 b i X -> inside_domain m X /\ in_reach m types w X)
  (Hrk1 : forall b bc r, nthZ bs1 b = Some bc -> (0 <= r < nranks D1)%Z -> (0 < b_l (fst bc) r)%Z)
  (Hrk2 : forall b bc r, nthZ bs2 b = Some bc -> (0 <= r < nranks D2)%Z -> (0 < b_l (fst bc) r)%Z).
Let Hneu := impermeable_neumann m _ _ Hb Himp.
Lemma in_second : forall b i X, located bs2 b i X -> inside_domain m X /\ in_reach m types w X.
Proof. intros b i X Hl. apply (Hin b i), (located_same bs1 bs2 Hsm), Hl. Qed.
Lemma decoupled_resumed : program_felt m D1 P types values name bs1 0 U1 q1 -> let mon := fun _ : dstate => @nil fsop in
  exists vs1 ps1 fs1 vs2 ps2 fs2 sA dA lsA s1 d1 ls1 sB dB ls2,
    exact_decoupled_program whole m D1 P types values name bs1 0 U1 q1 vs1 ps1 fs1 dsk0 (3 + 2) /\ exact_decoupled_program second_part m D2 P types values name bs2 0 U2 q2 vs2 ps2 fs2 d1 2 /\
    d_main 5 whole m D1 P types values name bs1 0 U1 q1 mon (convection m D1) vs1 ps1 fs1 dsk0 = Ok (Some (sA, dA, lsA)) /\
    d_main 5 first_part m D1 P types values name bs1 0 U1 q1 mon (convection m D1) vs1 ps1 fs1 dsk0 = Ok (Some (s1, d1, ls1)) /\
    d_main 5 second_part m D2 P types values name bs2 0 U2 q2 mon (convection m D2) vs2 ps2 fs2 d1 = Ok (Some (sB, dB, ls2)) /\
    ResumeSpec.same_flow m D1 D2 (p_refp P) (x_ns sA) (x_ns sB) /\ same_forces m D1 D2 bs1 bs2 (x_f sA) (x_f sB) /\ lsA = ls1 ++ ls2.
Proof.
  intros Hff mon. destruct (starts m D1 P types values name bs1 K w 0 0%Z U1 q1 Hs1 Hb Hbo1 HK ltac:(lia) Hin Hrk1) as (O1 & X1 & x1 & HI1).
  destruct (starts m D2 P types values name bs2 K w 0 0%Z U2 q2 Hs2 Hb Hbo2 HK ltac:(lia) in_second Hrk2) as (O2 & X2 & x2 & HI2).
  destruct (exact_decoupled_solvers _ _ _ _ _ _ _ _ _ _ _ _ _ _ Hs1 Hbo1 HI1) as (vs1 & ps1 & fs1 & S1). destruct (exact_decoupled_solvers _ _ _ _ _ _ _ _ _ _ _ _ _ _ Hs2 Hbo2 HI2) as (vs2 & ps2 & fs2 & S2).
  assert (run : forall conf, c_nstart conf = 0%Z -> c_nsave conf <> 0%Z -> c_nrestart conf <> 0%Z -> (Z.to_nat (c_nt conf) <= 5)%nat ->
    exists s d ls, d_main 5 conf m D1 P types values name bs1 0 U1 q1 mon (convection m D1) vs1 ps1 fs1 dsk0 = Ok (Some (s, d, ls))).
  { intros conf N0 N1 N2 Hf. exact (proj1 (proj2 (ib_simulations_complete m D1 P types values name bs1 0 U1 q1 vs1 ps1 fs1 mo pos vel (fun _ => fs1) K w conf 5%nat dsk0 Hs1 Hb Hbo1 HK ltac:(lia) Hin Hrk1 N0 N1 N2 Hf)) mon). }
  destruct (run whole eq_refl ltac:(discriminate) ltac:(discriminate) ltac:(cbn; lia)) as (sA & dA & lsA & HA). destruct (run first_part eq_refl ltac:(discriminate) ltac:(discriminate) ltac:(cbn; lia)) as (s1 & d1 & ls1 & H1).
  assert (XA : exact_decoupled_program whole m D1 P types values name bs1 0 U1 q1 vs1 ps1 fs1 dsk0 (3 + 2)) by exact (decoupled_program_exact m D1 P types values name bs1 0 U1 q1 Hs1 Hb Hbo1 Hmin Hneu Hun Hbn Hdt Hc vs1 ps1 whole dsk0 (3 + 2)%nat fs1 S1).
  assert (XB : exact_decoupled_program second_part m D2 P types values name bs2 0 U2 q2 vs2 ps2 fs2 d1 2) by exact (decoupled_program_exact m D2 P types values name bs2 0 U2 q2 Hs2 Hb Hbo2 Hmin Hneu Hun Hbn Hdt Hc vs2 ps2 second_part d1 2%nat fs2 S2).
  destruct (decoupled_restart_other_grid m D1 D2 P types values name bs1 bs2 h K w 0 U1 U2 q1 q2 vs1 ps1 fs1 vs2 ps2 fs2 mon mon mon whole first_part second_part 5 5 5 dsk0 sA dA lsA s1 d1 ls1 3 2
    Hs1 Hs2 Hb Hbo1 Hbo2 Hsm Hord (Hu _) HK Hw Hmin Himp Hnc Hbn Hdt Hc (or_intror H1l) HU Hin Hrk2 eq_refl eq_refl eq_refl ltac:(cbn; lia) ltac:(intros s o n []) eq_refl ltac:(lia) eq_refl eq_refl eq_refl XA XB HA H1
    ltac:(exists 1%Z; reflexivity) (or_intror eq_refl) ltac:(discriminate) ltac:(discriminate) ltac:(lia)) as (sB & dB & ls2 & HB & Hfl & Hfo). destruct (Hfo Hff) as [Hfo1 Hfo2].
  exists vs1, ps1, fs1, vs2, ps2, fs2, sA, dA, lsA, s1, d1, ls1, sB, dB, ls2. exact (conj XA (conj XB (conj HA (conj H1 (conj HB (conj Hfl (conj Hfo1 Hfo2))))))).
Qed.

Lemma exact_coupled_solvers D bs U0 p0 n O a : mesh_setup m D -> bodies_ok m D bs -> ib_init m D P types values name bs 0 n U0 p0 = Ok (O, a) ->
  exists vs ps, forall n' O' a', ib_init m D P types values name bs 0 n' U0 p0 = Ok (O', a') -> exact_solver (n_velocity m) (o_A (ib_ns O')) vs /\ exact_solver (ib_n O') (o_DBNG (ib_ns O')) ps.
Proof.
  intros Hs Hbo HI. destruct (c_init_any m D P types values name bs 0 U0 p0 n O a HI) as [_ Q]. destruct (c_lay m D P types values name bs 0 U0 p0 Hs Hb n O a HI) as [_ En].
  destruct (exact_exists (n_velocity m) (o_A (ib_ns O)) (nv_nonneg m D Hs)) as (vs & Hv).
  destruct (exact_exists (ib_n O) (o_DBNG (ib_ns O)) ltac:(pose proof (np_pos m D Hs); pose proof (nf_nonneg m D bs Hbo); lia)) as (ps & Hp). exists vs, ps.
  intros n' O' a' E. destruct (Q n') as (y & Ey). unfold c_init in Ey. rewrite E in Ey. injection Ey as -> _. auto.
Qed.
Lemma coupled_resumed : let mon := fun _ : nsstate => @nil fsop in
  exists vs1 ps1 vs2 ps2 sA dA lsA s1 d1 ls1 sB dB ls2,
    exact_coupled_program whole m D1 P types values name bs1 0 U1 q1 vs1 ps1 dsk0 (3 + 2) /\ exact_coupled_program second_part m D2 P types values name bs2 0 U2 q2 vs2 ps2 d1 2 /\
    ib_main 5 whole m D1 P types values name bs1 0 U1 q1 mon (convection m D1) vs1 ps1 dsk0 = Ok (Some (sA, dA, lsA)) /\
    ib_main 5 first_part m D1 P types values name bs1 0 U1 q1 mon (convection m D1) vs1 ps1 dsk0 = Ok (Some (s1, d1, ls1)) /\
    ib_main 5 second_part m D2 P types values name bs2 0 U2 q2 mon (convection m D2) vs2 ps2 d1 = Ok (Some (sB, dB, ls2)) /\
    s_ite sA = 5%Z /\ s_ite sB = 5%Z /\ same_velocity m D1 D2 (s_U sA) (s_U sB).
Proof.
  intros mon.
  destruct (coupled_never_fails m D1 P types values name bs1 K w (convection m D1) (fun _ _ _ => 0) (fun _ _ _ => 0) 0 0%Z U1 q1 0%nat Hs1 Hb Hbo1 HK ltac:(lia) Hin Hrk1) as (O1 & a1 & _ & HI1 & _); [intros g B x HB; exact (convection_total m D1 _ _ _ B x Hs1 Hb HB)|].
  destruct (coupled_never_fails m D2 P types values name bs2 K w (convection m D2) (fun _ _ _ => 0) (fun _ _ _ => 0) 0 0%Z U2 q2 0%nat Hs2 Hb Hbo2 HK ltac:(lia) in_second Hrk2) as (O2 & a2 & _ & HI2 & _); [intros g B x HB; exact (convection_total m D2 _ _ _ B x Hs2 Hb HB)|].
  destruct (exact_coupled_solvers _ _ _ _ _ _ _ Hs1 Hbo1 HI1) as (vs1 & ps1 & S1). destruct (exact_coupled_solvers _ _ _ _ _ _ _ Hs2 Hbo2 HI2) as (vs2 & ps2 & S2).
  assert (run : forall conf, c_nstart conf = 0%Z -> c_nsave conf <> 0%Z -> c_nrestart conf <> 0%Z -> (Z.to_nat (c_nt conf) <= 5)%nat ->
    exists s d ls, ib_main 5 conf m D1 P types values name bs1 0 U1 q1 mon (convection m D1) vs1 ps1 dsk0 = Ok (Some (s, d, ls))).
  { intros conf N0 N1 N2 Hf. exact (proj1 (ib_simulations_complete m D1 P types values name bs1 0 U1 q1 vs1 ps1 (fun _ b => b) mo pos vel (fun _ _ b => b) K w conf 5%nat dsk0 Hs1 Hb Hbo1 HK ltac:(lia) Hin Hrk1 N0 N1 N2 Hf) mon). }
  destruct (run whole eq_refl ltac:(discriminate) ltac:(discriminate) ltac:(cbn; lia)) as (sA & dA & lsA & HA). destruct (run first_part eq_refl ltac:(discriminate) ltac:(discriminate) ltac:(cbn; lia)) as (s1 & d1 & ls1 & H1).
  assert (XA : exact_coupled_program whole m D1 P types values name bs1 0 U1 q1 vs1 ps1 dsk0 (3 + 2)) by exact (coupled_program_exact m D1 P types values name bs1 0 U1 q1 Hs1 Hb Hbo1 Hmin Hneu Hun Hbn Hdt Hc vs1 ps1 whole dsk0 (3 + 2)%nat S1).
  assert (XB : exact_coupled_program second_part m D2 P types values name bs2 0 U2 q2 vs2 ps2 d1 2) by exact (coupled_program_exact m D2 P types values name bs2 0 U2 q2 Hs2 Hb Hbo2 Hmin Hneu Hun Hbn Hdt Hc vs2 ps2 second_part d1 2%nat S2).
  destruct (coupled_restart_other_grid m D1 D2 P types values name bs1 bs2 h K w 0 U1 U2 q1 q2 vs1 ps1 vs2 ps2 mon mon mon whole first_part second_part 5 5 5 dsk0 sA dA lsA s1 d1 ls1 3 2
    Hs1 Hs2 Hb Hbo1 Hbo2 Hsm Hord (Hu _) HK Hw Hmin Himp Hnc Hbn Hdt Hc (or_intror H1l) HU Hin Hrk2 eq_refl eq_refl eq_refl ltac:(cbn; lia) ltac:(intros s o n []) eq_refl ltac:(lia) eq_refl eq_refl eq_refl XA XB HA H1
    ltac:(exists 1%Z; reflexivity) (or_intror eq_refl) ltac:(discriminate) ltac:(discriminate) ltac:(lia)) as (sB & dB & ls2 & HB & Ht & Hi & Hv & _).
  assert (I5 : s_ite sA = 5%Z).
  { pose proof HA as HA'. rewrite ib_main_is in HA'. destruct (g_main_inv _ _ _ _ _ _ _ _ _ _ _ _ _ _ _ HA') as (O & y0 & y1 & wA & E1 & E2 & E3). destruct (c_init_any _ _ _ _ _ _ _ _ _ _ _ _ _ E1) as [Hi0 _].
    assert (Hi1 : s_ite y1 = 0%Z) by exact (eq_trans (io_inv s_ite (fun _ : unit => ib_write_solution m D1 O) (fun _ : unit => ib_read_restart m D1 O (n_forces m bs1)) (fun _ => c_rite m D1 _ _) tt whole y0 _ y1 wA E2) Hi0).
    destruct (f_drive_inv _ _ _ _ _ (c_ite m D1 P _ vs1 ps1 _) whole mon _ _ _ _ _ _ E3) as (R1 & _). rewrite (run_ite s_ite _ (c_ite m D1 P _ vs1 ps1 _) _ _ _ R1), Hi1. unfold nleft. rewrite Hi1. reflexivity. }
  exists vs1, ps1, vs2, ps2, sA, dA, lsA, s1, d1, ls1, sB, dB, ls2. split; [exact XA|]. split; [exact XB|]. split; [exact HA|]. split; [exact H1|]. split; [exact HB|]. split; [exact I5|]. split; [congruence|exact Hv].
Qed.

Hypotheses (Hmo1 : prescribed m D1 bs1 mo pos vel) (Hmo2 : prescribed m D2 bs2 mo pos vel)
  (Hmin' : forall t b i X, located (bodies_at bs1 (pos t)) b i X -> inside_domain m X /\ in_reach m types w X).
Definition always_felt (D : dec) (bs : list (body * list (list R))) (U0 p0 : vec) : Prop := forall n O a t B X, r_init m D P types values name bs 0 n U0 p0 = Ok (O, a) -> (exists hist, boundary_after m D types values hist B) ->
    createExtraOperators m D B P O name (bodies_at bs (pos t)) = Ok X -> forces_felt m (n_forces m bs) X.
Lemma moving_resumed : always_felt D1 bs1 U1 q1 -> always_felt D2 bs2 U2 q2 -> let mon := fun _ : rstate => @nil fsop in
  exists vs1 ps1 fs1 vs2 ps2 fs2 sA dA lsA s1 d1 ls1 sB dB ls2,
    exact_moving_program whole m D1 P types values name bs1 mo 0 U1 q1 vs1 ps1 fs1 dsk0 (3 + 2) /\ exact_moving_program second_part m D2 P types values name bs2 mo 0 U2 q2 vs2 ps2 fs2 d1 2 /\
    r_main 5 whole m D1 P types values name bs1 mo 0 U1 q1 mon (convection m D1) vs1 ps1 fs1 dsk0 = Ok (Some (sA, dA, lsA)) /\
    r_main 5 first_part m D1 P types values name bs1 mo 0 U1 q1 mon (convection m D1) vs1 ps1 fs1 dsk0 = Ok (Some (s1, d1, ls1)) /\
    r_main 5 second_part m D2 P types values name bs2 mo 0 U2 q2 mon (convection m D2) vs2 ps2 fs2 d1 = Ok (Some (sB, dB, ls2)) /\
    ResumeSpec.same_flow m D1 D2 (p_refp P) (x_ns (r_x sA)) (x_ns (r_x sB)) /\ same_forces m D1 D2 bs1 bs2 (x_f (r_x sA)) (x_f (r_x sB)) /\ same_points (r_bodies sA) (r_bodies sB) /\ lsA = ls1 ++ ls2.
Proof.
  intros Hff Hff2 mon. destruct (starts m D1 P types values name bs1 K w 0 0%Z U1 q1 Hs1 Hb Hbo1 HK ltac:(lia) Hin Hrk1) as (O1 & X1 & x1 & HI1).
  destruct (starts m D2 P types values name bs2 K w 0 0%Z U2 q2 Hs2 Hb Hbo2 HK ltac:(lia) in_second Hrk2) as (O2 & X2 & x2 & HI2).
  destruct (exact_decoupled_solvers _ _ _ _ _ _ _ _ _ _ _ _ _ _ Hs1 Hbo1 HI1) as (vs1 & ps1 & f1 & S1). destruct (exact_decoupled_solvers _ _ _ _ _ _ _ _ _ _ _ _ _ _ Hs2 Hbo2 HI2) as (vs2 & ps2 & f2 & S2).
  assert (T1 : forall n O a, r_init m D1 P types values name bs1 0 n U1 q1 = Ok (O, a) -> exact_solver (n_velocity m) (o_A O) vs1 /\ exact_solver (n_pressure m) (o_DBNG O) ps1).
  { intros n O a HI. destruct (v_init_any m D1 P types values name bs1 0 U1 q1 n O a HI) as ((X & y & E & _) & _). destruct (S1 _ _ _ _ E) as (Sa & Sb & _). auto. }
  assert (T2 : forall n O a, r_init m D2 P types values name bs2 0 n U2 q2 = Ok (O, a) -> exact_solver (n_velocity m) (o_A O) vs2 /\ exact_solver (n_pressure m) (o_DBNG O) ps2).
  { intros n O a HI. destruct (v_init_any m D2 P types values name bs2 0 U2 q2 n O a HI) as ((X & y & E & _) & _). destruct (S2 _ _ _ _ E) as (Sa & Sb & _). auto. }
  destruct (exact_family _ (nf_nonneg m D1 bs1 Hbo1)) as (fs1 & Hf1). destruct (exact_family _ (nf_nonneg m D2 bs2 Hbo2)) as (fs2 & Hf2).
  assert (run : forall conf, c_nstart conf = 0%Z -> c_nsave conf <> 0%Z -> c_nrestart conf <> 0%Z -> (Z.to_nat (c_nt conf) <= 5)%nat ->
    exists s d ls, r_main 5 conf m D1 P types values name bs1 mo 0 U1 q1 mon (convection m D1) vs1 ps1 fs1 dsk0 = Ok (Some (s, d, ls))).
  { intros conf N0 N1 N2 Hf. apply (proj2 (proj2 (ib_simulations_complete m D1 P types values name bs1 0 U1 q1 vs1 ps1 f1 mo pos vel fs1 K w conf 5%nat dsk0 Hs1 Hb Hbo1 HK ltac:(lia) Hin Hrk1 N0 N1 N2 Hf)) Hmo1).
    intros j b i X _ _ Hl. exact (Hmin' _ b i X Hl). }
  destruct (run whole eq_refl ltac:(discriminate) ltac:(discriminate) ltac:(cbn; lia)) as (sA & dA & lsA & HA). destruct (run first_part eq_refl ltac:(discriminate) ltac:(discriminate) ltac:(cbn; lia)) as (s1 & d1 & ls1 & H1).
  assert (XA : exact_moving_program whole m D1 P types values name bs1 mo 0 U1 q1 vs1 ps1 fs1 dsk0 (3 + 2)) by exact (moving_program_exact m D1 P types values name bs1 0 U1 q1 Hs1 Hb Hbo1 Hmin Hneu Hun Hbn Hdt Hc vs1 ps1 whole dsk0 (3 + 2)%nat mo pos vel fs1 Hmo1 Hff T1 Hf1).
  assert (XB : exact_moving_program second_part m D2 P types values name bs2 mo 0 U2 q2 vs2 ps2 fs2 d1 2) by exact (moving_program_exact m D2 P types values name bs2 0 U2 q2 Hs2 Hb Hbo2 Hmin Hneu Hun Hbn Hdt Hc vs2 ps2 second_part d1 2%nat mo pos vel fs2 Hmo2 Hff2 T2 Hf2).
  destruct (moving_restart_other_grid m D1 D2 P types values name bs1 bs2 mo mo pos vel h K w 0 U1 U2 q1 q2 vs1 ps1 fs1 vs2 ps2 fs2 mon mon mon whole first_part second_part 5 5 5 dsk0 sA dA lsA s1 d1 ls1 3 2
    Hs1 Hs2 Hb Hbo1 Hbo2 Hsm Hord Hmo1 Hmo2 (fun t => Hu _) HK Hw Hmin Himp Hnc Hbn Hdt Hc (or_intror H1l) HU Hin (fun i b p X _ => Hmin' _ b p X) Hrk2 eq_refl eq_refl eq_refl ltac:(cbn; lia) ltac:(intros s o n []) eq_refl ltac:(lia) eq_refl eq_refl eq_refl ltac:(lia) XA XB HA H1
    (fun n O a i B X HI _ HB EX => Hff n O a _ B X HI HB EX)
    ltac:(exists 1%Z; reflexivity) (or_intror eq_refl) ltac:(discriminate) ltac:(discriminate) ltac:(lia)) as (sB & dB & ls2 & HB & Hfl & Hfo & Hpt & Hls).
  exists vs1, ps1, fs1, vs2, ps2, fs2, sA, dA, lsA, s1, d1, ls1, sB, dB, ls2. exact (conj XA (conj XB (conj HA (conj H1 (conj HB (conj Hfl (conj Hfo (conj Hpt Hls)))))))).
Qed.
End Resumed.

(** The two points of the case of C79, fixed or moving, from any velocity, with
    the first-order scheme: on two ranks, then on one. *)
Example ib_resume_case : forall name K w g q1 q2 refp, getKernel name = Ok (K, w) ->
  let m := un_mesh false false in let D1 := un_dec false false in let D2 := solo_dec in let bs1 := pair [2; 4] [6; 4] in let bs2 := solo [2; 4] [6; 4] in
  let P := mkPar (1/100) 1 1 [1] (1/2) [1/2] refp in let types := un_types false false in let values := fun _ _ => 0 in
  let U1 := stored_velocity m D1 g in let U2 := stored_velocity m D2 g in
  nranks D1 = 2%Z /\ nranks D2 = 1%Z /\ mesh_setup m D1 /\ mesh_setup m D2 /\ bc_fits m types /\ bodies_ok m D1 bs1 /\ bodies_ok m D2 bs2 /\ same_points bs1 bs2 /\ same_order m D1 D2 bs1 bs2 /\
  prescribed m D1 bs1 rocking_motion rocking rocking_velocity /\ prescribed m D2 bs2 rocking_motion rocking rocking_velocity /\
  (forall bs, uniform_around m unit_h w bs) /\ wide_enough m w /\ periodic_min m 3 /\ impermeable m types values /\ no_convective m types /\ one_level P /\ same_velocity m D1 D2 U1 U2 /\
  (let mon := fun _ : dstate => @nil fsop in exists vs1 ps1 fs1 vs2 ps2 fs2 sA dA lsA s1 d1 ls1 sB dB ls2,
    exact_decoupled_program whole m D1 P types values name bs1 0 U1 q1 vs1 ps1 fs1 dsk0 (3 + 2) /\ exact_decoupled_program second_part m D2 P types values name bs2 0 U2 q2 vs2 ps2 fs2 d1 2 /\
    d_main 5 whole m D1 P types values name bs1 0 U1 q1 mon (convection m D1) vs1 ps1 fs1 dsk0 = Ok (Some (sA, dA, lsA)) /\
    d_main 5 first_part m D1 P types values name bs1 0 U1 q1 mon (convection m D1) vs1 ps1 fs1 dsk0 = Ok (Some (s1, d1, ls1)) /\
    d_main 5 second_part m D2 P types values name bs2 0 U2 q2 mon (convection m D2) vs2 ps2 fs2 d1 = Ok (Some (sB, dB, ls2)) /\
    ResumeSpec.same_flow m D1 D2 (p_refp P) (x_ns sA) (x_ns sB) /\ same_forces m D1 D2 bs1 bs2 (x_f sA) (x_f sB) /\ lsA = ls1 ++ ls2) /\
  (let mon := fun _ : nsstate => @nil fsop in exists vs1 ps1 vs2 ps2 sA dA lsA s1 d1 ls1 sB dB ls2,
    exact_coupled_program whole m D1 P types values name bs1 0 U1 q1 vs1 ps1 dsk0 (3 + 2) /\ exact_coupled_program second_part m D2 P types values name bs2 0 U2 q2 vs2 ps2 d1 2 /\
    ib_main 5 whole m D1 P types values name bs1 0 U1 q1 mon (convection m D1) vs1 ps1 dsk0 = Ok (Some (sA, dA, lsA)) /\
    ib_main 5 first_part m D1 P types values name bs1 0 U1 q1 mon (convection m D1) vs1 ps1 dsk0 = Ok (Some (s1, d1, ls1)) /\
    ib_main 5 second_part m D2 P types values name bs2 0 U2 q2 mon (convection m D2) vs2 ps2 d1 = Ok (Some (sB, dB, ls2)) /\
    s_ite sA = 5%Z /\ s_ite sB = 5%Z /\ same_velocity m D1 D2 (s_U sA) (s_U sB)) /\
  (let mon := fun _ : rstate => @nil fsop in let mo := rocking_motion in exists vs1 ps1 fs1 vs2 ps2 fs2 sA dA lsA s1 d1 ls1 sB dB ls2,
    exact_moving_program whole m D1 P types values name bs1 mo 0 U1 q1 vs1 ps1 fs1 dsk0 (3 + 2) /\ exact_moving_program second_part m D2 P types values name bs2 mo 0 U2 q2 vs2 ps2 fs2 d1 2 /\
    r_main 5 whole m D1 P types values name bs1 mo 0 U1 q1 mon (convection m D1) vs1 ps1 fs1 dsk0 = Ok (Some (sA, dA, lsA)) /\
    r_main 5 first_part m D1 P types values name bs1 mo 0 U1 q1 mon (convection m D1) vs1 ps1 fs1 dsk0 = Ok (Some (s1, d1, ls1)) /\
    r_main 5 second_part m D2 P types values name bs2 mo 0 U2 q2 mon (convection m D2) vs2 ps2 fs2 d1 = Ok (Some (sB, dB, ls2)) /\
    ResumeSpec.same_flow m D1 D2 (p_refp P) (x_ns (r_x sA)) (x_ns (r_x sB)) /\ same_forces m D1 D2 bs1 bs2 (x_f (r_x sA)) (x_f (r_x sB)) /\ same_points (r_bodies sA) (r_bodies sB) /\ lsA = ls1 ++ ls2).
Proof.
  intros name K w g q1 q2 refp HK m D1 D2 bs1 bs2 P types values U1 U2.
  assert (W : (w <= 3)%Z) by (destruct (getKernel_cases _ _ _ HK) as [(_ & _ & -> & _)|(_ & _ & -> & _)]; lia).
  pose proof (un_setup false false : mesh_setup m D1) as Hs1. pose proof (solo_setup : mesh_setup m D2) as Hs2. pose proof (un_fits false false : bc_fits m types) as Hb.
  pose proof (pair_ok false false [2; 4] [6; 4] eq_refl eq_refl : bodies_ok m D1 bs1) as Hbo1. pose proof (solo_ok [2; 4] [6; 4] eq_refl eq_refl : bodies_ok m D2 bs2) as Hbo2.
  assert (Hsm : same_points bs1 bs2) by reflexivity. assert (Hord : same_order m D1 D2 bs1 bs2) by (apply one_body_same_order; auto).
  assert (Hu : forall bs, uniform_around m unit_h w bs) by (intros bs; apply (uniform_is_around m D1 unit_h w _ Hs1), un_uniform).
  assert (Hw : wide_enough m w) by now apply un_wide. assert (Hmin : periodic_min m 3) by (apply un_min; lia).
  assert (Hnc : no_convective m types) by (intros f loc _ _; unfold types, un_types; destruct (loc <? 2)%Z; discriminate).
  assert (H1l : one_level P) by (split; unfold P, lenZ; cbn; lia).
  assert (HU : same_velocity m D1 D2 U1 U2) by (intros i1 i2 f x E1 E2; unfold U1, U2, stored_velocity; now rewrite E1, E2).
  assert (Hdt : 0 < p_dt P) by (cbn; lra). assert (Hc : 0 <= p_dimp P * p_nu P) by (cbn; lra).
  assert (Hin : forall b i X, located bs1 b i X -> inside_domain m X /\ in_reach m types w X) by (intros b i X Hl; apply (rocking_reach w 4 4 ltac:(lra) ltac:(lra) b i X Hl)).
  assert (Hrk1 : forall b bc r, nthZ bs1 b = Some bc -> (0 <= r < nranks D1)%Z -> (0 < b_l (fst bc) r)%Z) by (apply (pair_ranks false false)).
  assert (Hrk2 : forall b bc r, nthZ bs2 b = Some bc -> (0 <= r < nranks D2)%Z -> (0 < b_l (fst bc) r)%Z) by (apply solo_ranks).
  assert (Hmv : forall t b i X, located (bodies_at bs1 (rocking t)) b i X -> inside_domain m X /\ in_reach m types w X) by (intros t b i X Hl; exact (rocking_reach w _ _ (proj1 (sin_bounds t)) (proj2 (sin_bounds t)) b i X Hl)).
  assert (Hat : forall bs t b i X, bs = bs1 \/ bs = bs2 -> located (bodies_at bs (rocking t)) b i X -> located (pair [2; 4 + sin t] [6; 4 - sin t]) b i X) by (intros bs t b i X [->| ->]; apply located_same; reflexivity).
  assert (Hff : program_felt m D1 P types values name bs1 0 U1 q1).
  { intros n O X x0 HI. destruct (d_init_inv m D1 P types values Hs1 Hb _ _ _ _ _ _ _ _ _ HI) as (B & HB' & _ & EX & _).
    apply (far_apart_points_are_felt m D1 P types values O name bs1 unit_h K w _ B X Hs1 (Hu _) Hbo1 HK Hb HB' Hw); [apply (rocking_clear name K w 4 4 HK); lra|apply (rocking_far name K w 4 4 HK)|exact EX]. }
  assert (Hfe : forall D bs U p, bs = bs1 \/ bs = bs2 -> mesh_setup m D -> bodies_ok m D bs -> prescribed m D bs rocking_motion rocking rocking_velocity -> always_felt m P types values name rocking D bs U p).
  { intros D bs U p Hbs Hs Hbo Hmo n O a t B X _ (hist & HB) EX. rewrite <- (forces_at m bs (rocking t) (shape_len _ _ (proj1 (Hmo t)))).
    apply (far_apart_points_are_felt m D P types values O name (bodies_at bs (rocking t)) unit_h K w hist B X Hs (Hu _) (ok_at m D bs _ Hbo (proj1 (Hmo t))) HK Hb HB Hw); [| |exact EX].
    - intros b i Y Hl. exact (rocking_clear name K w _ _ HK (proj1 (sin_bounds t)) (proj2 (sin_bounds t)) b i Y (Hat bs t _ _ _ Hbs Hl)).
    - intros b i Y b' i' Y' Hl Hl' Hne. exact (rocking_far name K w _ _ HK b i Y b' i' Y' (Hat bs t _ _ _ Hbs Hl) (Hat bs t _ _ _ Hbs Hl') Hne). }
  split; [reflexivity|]. split; [reflexivity|]. split; [exact Hs1|]. split; [exact Hs2|]. split; [exact Hb|]. split; [exact Hbo1|]. split; [exact Hbo2|]. split; [exact Hsm|]. split; [exact Hord|].
  split; [exact rocking_prescribed|]. split; [exact solo_prescribed|]. split; [exact Hu|]. split; [exact Hw|]. split; [exact Hmin|]. split; [exact un_impermeable|]. split; [exact Hnc|]. split; [exact H1l|]. split; [exact HU|].
  split; [|split].
  - exact (decoupled_resumed m D1 D2 P types values name bs1 bs2 unit_h K w U1 U2 q1 q2 rocking_motion rocking rocking_velocity Hs1 Hs2 Hb Hbo1 Hbo2 Hsm Hord HK Hw Hu Hmin un_impermeable Hnc un_undriven eq_refl Hdt Hc H1l HU Hin Hrk1 Hrk2 Hff).
  - exact (coupled_resumed m D1 D2 P types values name bs1 bs2 unit_h K w U1 U2 q1 q2 rocking_motion rocking rocking_velocity Hs1 Hs2 Hb Hbo1 Hbo2 Hsm Hord HK Hw Hu Hmin un_impermeable Hnc un_undriven eq_refl Hdt Hc H1l HU Hin Hrk1 Hrk2).
  - exact (moving_resumed m D1 D2 P types values name bs1 bs2 unit_h K w U1 U2 q1 q2 rocking_motion rocking rocking_velocity Hs1 Hs2 Hb Hbo1 Hbo2 Hsm Hord HK Hw Hu Hmin un_impermeable Hnc un_undriven eq_refl Hdt Hc H1l HU Hin Hrk1 Hrk2
      rocking_prescribed solo_prescribed Hmv (Hfe D1 bs1 U1 q1 (or_introl eq_refl) Hs1 Hbo1 rocking_prescribed) (Hfe D2 bs2 U2 q2 (or_intror eq_refl) Hs2 Hbo2 solo_prescribed)).
Qed.
