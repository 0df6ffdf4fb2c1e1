(** C88: the results of the immersed-boundary programs are saved and displayed. *)
From Coq Require Import Ascii String ZifyBool.
From Verif Require Import BnSpec BnProof NSProps DriverProps DeltaProof DeltaSum DeltaKernel DeltaProps IbpmOsc IbpmProps MoveProps IbOutTotal IbOutBalance.
From Verif Require Import Prelude ZSum RSum TypesModel GridModel GridSpec GridProof MeshProof
  IndexModel IndexSpec IndexProof BoundaryModel BoundarySpec BoundaryProof OperatorModel OperatorSpec OperatorProof MatModel BnModel NSModel NSSpec NSProof NameModel NameSpec NameProof
  DriverModel DriverSpec DriverProof DriveProof RestartProof RunProof VortModel VortSpec VortProof GridFile VortFile VortProps ConvModel ConvSpec
  XdmfModel XdmfSpec XdmfProof
  BodyModel BodySpec BodyProof BodyUse DeltaModel DeltaSpec IbpmModel IbpmSpec IbpmProof IbpmStep IbpmDec IbpmMove IbOutModel IbOutSpec IbOutDrive IbOutSim IbOutLines IbOutProof IbOutDec
  IbOutProps IbVisSpec IbVisProof.
Local Open Scope R_scope.

(** A run of the coupled program: the file of the first step and of every saved
    step holds the velocity, the pressure (without the forces) and the time of
    the state after that many steps. The vorticity utility, on any process grid,
    and the XDMF utility then show the run. *)
Theorem coupled_results : forall m D P types values name bodies t0 U0 p0 conv vs ps fuel conf mon d s2 d2 ls,
  mesh_setup m D -> bc_fits m types -> bodies_ok m D bodies ->
  ib_main fuel conf m D P types values name bodies t0 U0 p0 mon conv vs ps d = Ok (Some (s2, d2, ls)) ->
  writes_elsewhere (c_out conf) mon -> (0 <= c_nstart conf)%Z ->
  exists IO s0 s1 w, ib_init m D P types values name bodies t0 (c_nstart conf) U0 p0 = Ok (IO, s0) /\
    io_initial_with s_ite (ib_write_solution m D IO) (ib_read_restart m D IO (n_forces m bodies)) conf s0 (run_ops (f_init_ops m conf) d) = Ok (s1, w) /\
    let at_step := fun t st => exists s, run_steps (ib_advance m D P IO conv vs ps) (Z.to_nat (t - c_nstart conf)) s1 = Ok s /\ st = with_p (nest_sub (ib_lay IO) 0 (s_p s)) s in
    (forall t, (c_nstart conf <= t <= c_nstart conf + c_nt conf)%Z -> (c_nsave conf | t)%Z \/ t = c_nstart conf ->
       exists st F, at_step t st /\ d2 (solution_path (c_out conf) t) = Some F /\ holds_solution m D st F) /\
    (off_grid (c_out conf) mon -> (0 < c_nsave conf)%Z -> (c_nsave conf | c_nstart conf)%Z ->
     forall D' fuel1 fuel', mesh_setup m D' -> (c_nt conf < Z.of_nat fuel1)%Z -> (c_nt conf < Z.of_nat fuel')%Z ->
     exists d3 docs, vort_main fuel1 m D' types values (c_out conf) (c_nstart conf) (c_nstart conf + c_nt conf) (c_nsave conf) d2 = Ok (Some d3) /\
       xdmf_main fuel' m (c_out conf) (c_nstart conf) (c_nstart conf + c_nt conf) (c_nsave conf) = Some docs /\
       shows m D (c_out conf) (c_nstart conf) (c_nstart conf + c_nt conf) (c_nsave conf) docs d3 at_step).
Proof.
  intros m D P types values name bodies t0 U0 p0 conv vs ps fuel conf mon d s2 d2 ls Hset Hb Hbo H Hm H0. rewrite ib_main_is in H. pose proof (setup_facts _ _ Hset) as Fm.
  destruct (prog_files m D s_ite _ _ _ _ _ _ (fun IO s => with_p (nest_sub (ib_lay IO) 0 (s_p s)) s) Hset (c_init_any m D P types values name bodies t0 U0 p0) (c_ite m D P conv vs ps)
    (c_rite m D bodies) (c_ws m D) (c_wr m D bodies) (fun O p s d => write_solution_file m D p _ d Fm) (fun O p s d => force_saved m D p _ _ _ d Fm)
    (fun n O s0 p d s1 HI HR => couple_read m D P types values name bodies t0 U0 p0 n O s0 p d s1 Hset Hb Hbo HI HR) _ _ _ _ _ _ _ H Hm H0) as (IO & s0 & s1 & w & E1 & E2 & A & B).
  exists IO, s0, s1, w. split; [exact E1|]. split; [exact E2|]. intros at_step.
  assert (A' : forall t, (c_nstart conf <= t <= c_nstart conf + c_nt conf)%Z -> (c_nsave conf | t)%Z \/ t = c_nstart conf ->
       exists st F, at_step t st /\ d2 (solution_path (c_out conf) t) = Some F /\ holds_solution m D st F).
  { intros t Ht Hd. destruct (A t Ht Hd) as (sk & F & Ek & EF & HF). exists (with_p (nest_sub (ib_lay IO) 0 (s_p sk)) sk), F. split; [exists sk; split; [exact Ek|reflexivity]|auto]. }
  split; [exact A'|]. intros Hg Hsv Hd D' fuel1 fuel' Hs' F1 F2. destruct (B Hg) as (G & EG & HC & _). eapply (results_shown m D types values conf d2 Hset G at_step D'); eauto.
Qed.
Print Assumptions coupled_results.

(** A run of the decoupled program. *)
Theorem decoupled_results : forall m D P types values name bodies t0 U0 p0 conv vs ps fs fuel conf mon d x2 d2 ls,
  mesh_setup m D -> bc_fits m types ->
  d_main fuel conf m D P types values name bodies t0 U0 p0 mon conv vs ps fs d = Ok (Some (x2, d2, ls)) ->
  writes_elsewhere (c_out conf) mon -> (0 <= c_nstart conf)%Z ->
  exists O X x0 x1 w, d_init m D P types values name bodies t0 (c_nstart conf) U0 p0 = Ok ((O, X), x0) /\
    io_initial_with x_ite (d_write_solution m D) (d_read_restart m D (n_forces m bodies)) conf x0 (run_ops (f_init_ops m conf) d) = Ok (x1, w) /\
    let at_step := fun t st => exists x, run_steps (d_advance m D P O X (n_forces m bodies) conv (d_assembleRHSForces m X) vs ps fs) (Z.to_nat (t - c_nstart conf)) x1 = Ok x /\ st = x_ns x in
    (forall t, (c_nstart conf <= t <= c_nstart conf + c_nt conf)%Z -> (c_nsave conf | t)%Z \/ t = c_nstart conf ->
       exists st F, at_step t st /\ d2 (solution_path (c_out conf) t) = Some F /\ holds_solution m D st F) /\
    (off_grid (c_out conf) mon -> (0 < c_nsave conf)%Z -> (c_nsave conf | c_nstart conf)%Z ->
     forall D' fuel1 fuel', mesh_setup m D' -> (c_nt conf < Z.of_nat fuel1)%Z -> (c_nt conf < Z.of_nat fuel')%Z ->
     exists d3 docs, vort_main fuel1 m D' types values (c_out conf) (c_nstart conf) (c_nstart conf + c_nt conf) (c_nsave conf) d2 = Ok (Some d3) /\
       xdmf_main fuel' m (c_out conf) (c_nstart conf) (c_nstart conf + c_nt conf) (c_nsave conf) = Some docs /\
       shows m D (c_out conf) (c_nstart conf) (c_nstart conf + c_nt conf) (c_nsave conf) docs d3 at_step).
Proof.
  intros m D P types values name bodies t0 U0 p0 conv vs ps fs fuel conf mon d x2 d2 ls Hset Hb H Hm H0. rewrite d_main_is in H. pose proof (setup_facts _ _ Hset) as Fm.
  destruct (prog_files m D x_ite _ _ _ _ _ _ (fun _ x => x_ns x) Hset (e_init_any m D P types values name bodies t0 U0 p0) (fun OX => e_ite m D P conv vs ps _ _ _ _ _)
    (fun _ => e_rite m D _) (fun _ => e_ws m D) (fun _ => e_wr m D _) (fun O p x d => write_solution_file m D p _ d Fm) (fun O p x d => force_saved m D p _ _ _ d Fm)
    (fun n O x0 p d x1 HI HR => dec_read m D _ p d x0 x1 Hset HR) _ _ _ _ _ _ _ H Hm H0) as ([O X] & x0 & x1 & w & E1 & E2 & A & B).
  exists O, X, x0, x1, w. split; [exact E1|]. split; [exact E2|]. intros at_step.
  assert (A' : forall t, (c_nstart conf <= t <= c_nstart conf + c_nt conf)%Z -> (c_nsave conf | t)%Z \/ t = c_nstart conf ->
       exists st F, at_step t st /\ d2 (solution_path (c_out conf) t) = Some F /\ holds_solution m D st F).
  { intros t Ht Hd. destruct (A t Ht Hd) as (sk & F & Ek & EF & HF). exists (x_ns sk), F. split; [exists sk; split; [exact Ek|reflexivity]|auto]. }
  split; [exact A'|]. intros Hg Hsv Hd D' fuel1 fuel' Hs' F1 F2. destruct (B Hg) as (G & EG & HC & _). eapply (results_shown m D types values conf d2 Hset G at_step D'); eauto.
Qed.
Print Assumptions decoupled_results.

(** A run of the program with moving bodies, for any motion. *)
Theorem moving_results : forall m D P types values name bodies mo t0 U0 p0 conv vs ps fs fuel conf mon d s2 d2 ls,
  mesh_setup m D -> bc_fits m types ->
  r_main fuel conf m D P types values name bodies mo t0 U0 p0 mon conv vs ps fs d = Ok (Some (s2, d2, ls)) ->
  writes_elsewhere (c_out conf) mon -> (0 <= c_nstart conf)%Z ->
  exists O s0 s1 w, r_init m D P types values name bodies t0 (c_nstart conf) U0 p0 = Ok (O, s0) /\
    io_initial_with r_ite (fun path s => d_write_solution m D path (r_x s)) (r_read_restart m D) conf s0 (run_ops (f_init_ops m conf) d) = Ok (s1, w) /\
    let at_step := fun t st => exists s, run_steps (r_advance m D P O name mo conv vs ps fs) (Z.to_nat (t - c_nstart conf)) s1 = Ok s /\ st = x_ns (r_x s) in
    (forall t, (c_nstart conf <= t <= c_nstart conf + c_nt conf)%Z -> (c_nsave conf | t)%Z \/ t = c_nstart conf ->
       exists st F, at_step t st /\ d2 (solution_path (c_out conf) t) = Some F /\ holds_solution m D st F) /\
    (off_grid (c_out conf) mon -> (0 < c_nsave conf)%Z -> (c_nsave conf | c_nstart conf)%Z ->
     forall D' fuel1 fuel', mesh_setup m D' -> (c_nt conf < Z.of_nat fuel1)%Z -> (c_nt conf < Z.of_nat fuel')%Z ->
     exists d3 docs, vort_main fuel1 m D' types values (c_out conf) (c_nstart conf) (c_nstart conf + c_nt conf) (c_nsave conf) d2 = Ok (Some d3) /\
       xdmf_main fuel' m (c_out conf) (c_nstart conf) (c_nstart conf + c_nt conf) (c_nsave conf) = Some docs /\
       shows m D (c_out conf) (c_nstart conf) (c_nstart conf + c_nt conf) (c_nsave conf) docs d3 at_step).
Proof.
  intros m D P types values name bodies mo t0 U0 p0 conv vs ps fs fuel conf mon d s2 d2 ls Hset Hb H Hm H0. rewrite r_main_is in H. pose proof (setup_facts _ _ Hset) as Fm.
  destruct (prog_files m D r_ite _ _ _ _ _ _ (fun _ s => x_ns (r_x s)) Hset (fun n O s0 HI => proj2 (v_init_any m D P types values name bodies t0 U0 p0 n O s0 HI)) (fun O s s' E => proj1 (v_ite m D P name conv vs ps mo fs O s s' E))
    (fun _ p d s s' E => mov_rite m D p d s s' E) (fun _ p s => e_ws m D p (r_x s)) (fun _ p s => e_wr m D _ p (r_x s)) (fun O p x d => write_solution_file m D p _ d Fm) (fun O p x d => force_saved m D p _ _ _ d Fm)
    (fun n O s0 p d s1 HI HR => mov_read m D p d s0 s1 Hset HR) _ _ _ _ _ _ _ H Hm H0) as (O & s0 & s1 & w & E1 & E2 & A & B).
  exists O, s0, s1, w. split; [exact E1|]. split; [exact E2|]. intros at_step.
  assert (A' : forall t, (c_nstart conf <= t <= c_nstart conf + c_nt conf)%Z -> (c_nsave conf | t)%Z \/ t = c_nstart conf ->
       exists st F, at_step t st /\ d2 (solution_path (c_out conf) t) = Some F /\ holds_solution m D st F).
  { intros t Ht Hd. destruct (A t Ht Hd) as (sk & F & Ek & EF & HF). exists (x_ns (r_x sk)), F. split; [exists sk; split; [exact Ek|reflexivity]|auto]. }
  split; [exact A'|]. intros Hg Hsv Hd D' fuel1 fuel' Hs' F1 F2. destruct (B Hg) as (G & EG & HC & _). eapply (results_shown m D types values conf d2 Hset G at_step D'); eauto.
Qed.
Print Assumptions moving_results.

(** A case: two bodies, a run of three steps and its continuation by two steps;
    the utilities after the continuation, for the coupled program, the decoupled
    one and the one with moving bodies. *)
Lemma shown_case m D out bg ed step docs d V : mesh_setup m D -> m_dim m = 2%Z -> shows m D out bg ed step docs d V -> (bg <= ed)%Z -> (step | ed)%Z ->
  exists gs g x y z v, In ((out ++ "/wz.xmf")%string, gs) docs /\ In g gs /\ xg_time g = ed /\ displayed d g (1, 1, 0)%Z = Some (x, y, z, v).
Proof.
  intros Hs Hd [_ HV] Hbe Hdiv. destruct (HV 2%Z) as (gs & Hin & (Hl & _) & Hg); [rewrite Hd; reflexivity|].
  assert (X : In ed (map xg_time gs)) by (apply Hl; split; [lia|exact Hdiv]). apply in_map_iff in X. destruct X as (g & Eg & Hgg).
  destruct (Hg g Hgg) as (st & _ & Hdis). destruct (Hdis 1%Z 1%Z 0%Z) as [(v & Ed & _) _].
  - destruct (mf_sizes _ _ (setup_facts _ _ Hs) 3 (or_intror eq_refl)) as (_ & A & B & C & _). unfold vort_sizes. cbn [Z.eqb Pos.eqb]. lia.
  - rewrite Hd in Ed. cbn [Z.eqb Pos.eqb] in Ed. do 6 eexists. split; [exact Hin|]. split; [exact Hgg|]. split; [exact Eg|exact Ed].
Qed.
Example results_case : forall name K w U0 p0, getKernel name = Ok (K, w) ->
  let m := un_mesh false false in let D := un_dec false false in let bodies := pair [4; 4] [13 / 4; 9 / 2] in let P := euler_par in
  let Am := osc_Am 1 1 in let Um := osc_Um 1 Am in let mo := osc_motion (nranks D) 1 Am Um (default_body 2 2) [[4; 4]; [13 / 4; 9 / 2]] in
  let types := un_types false false in let values := fun _ _ => 0 in
  let conv := fun (_ : boundary) (x : vec) => Ok x in let vs := fun (_ b : vec) => b in
  let conf1 := mkConf "o" "l" 0 3 1 3 in let conf2 := mkConf "o" "l" 3 2 1 3 in
  let seen := fun d2 : disk => exists d3 docs gs g x y z v, vort_main 3 m D types values "o" 3 5 1 d2 = Ok (Some d3) /\ xdmf_main 3 m "o" 3 5 1 = Some docs /\
     In ("o/wz.xmf"%string, gs) docs /\ In g gs /\ xg_time g = 5%Z /\ displayed d3 g (1, 1, 0)%Z = Some (x, y, z, v) in
  (exists s1 d1 ls1 s2 d2 ls2,
     ib_main 3 conf1 m D P types values name bodies 0 U0 p0 (fun _ => []) conv vs vs dsk0 = Ok (Some (s1, d1, ls1)) /\
     ib_main 2 conf2 m D P types values name bodies 0 U0 p0 (fun _ => []) conv vs vs d1 = Ok (Some (s2, d2, ls2)) /\ seen d2) /\
  (exists s1 d1 ls1 s2 d2 ls2,
     d_main 3 conf1 m D P types values name bodies 0 U0 p0 (fun _ => []) conv vs vs vs dsk0 = Ok (Some (s1, d1, ls1)) /\
     d_main 2 conf2 m D P types values name bodies 0 U0 p0 (fun _ => []) conv vs vs vs d1 = Ok (Some (s2, d2, ls2)) /\ seen d2) /\
  (exists s1 d1 ls1 s2 d2 ls2,
     r_main 3 conf1 m D P types values name bodies mo 0 U0 p0 (fun _ => []) conv vs vs (fun _ => vs) dsk0 = Ok (Some (s1, d1, ls1)) /\
     r_main 2 conf2 m D P types values name bodies mo 0 U0 p0 (fun _ => []) conv vs vs (fun _ => vs) d1 = Ok (Some (s2, d2, ls2)) /\ seen d2).
Proof.
  intros name K w U0 p0 HK m D bodies P Am Um mo types values conv vs conf1 conf2 seen.
  destruct (ib_restart_case name K w U0 p0 HK) as ((_ & _ & _ & s1 & d1 & ls1 & s2 & d2 & ls2 & _ & E1 & E2 & _) & (_ & _ & _ & x1 & dx1 & lx1 & x2 & dx2 & lx2 & _ & X1 & X2 & _) &
    (_ & _ & _ & r1 & dr1 & lr1 & r2 & dr2 & lr2 & _ & Y1 & Y2 & _)).
  pose proof (un_setup false false) as Hs. pose proof (un_fits false false) as Hb. pose proof (pair_ok false false [4; 4] [13 / 4; 9 / 2] eq_refl eq_refl) as Hbo.
  assert (W : forall A, writes_elsewhere (A := A) "o" (fun _ => [])) by (intros A s o n []). assert (G : forall A, off_grid (A := A) "o" (fun _ => [])) by (intros A s o []).
  assert (Sn : forall d2 V, (off_grid (A := unit) "o" (fun _ => []) -> (0 < 1)%Z -> (1 | 3)%Z -> forall D' fuel1 fuel', mesh_setup m D' -> (2 < Z.of_nat fuel1)%Z -> (2 < Z.of_nat fuel')%Z ->
     exists d3 docs, vort_main fuel1 m D' types values "o" 3 (3 + 2) 1 d2 = Ok (Some d3) /\ xdmf_main fuel' m "o" 3 (3 + 2) 1 = Some docs /\ shows m D "o" 3 (3 + 2) 1 docs d3 V) -> seen d2).
  { intros dd V H. destruct (H (G _) ltac:(lia) (Z.divide_1_l 3) D 3%nat 3%nat Hs ltac:(lia) ltac:(lia)) as (d3 & docs & Ev & Ex & Sh).
    destruct (shown_case m D "o" 3 (3 + 2) 1 docs d3 V Hs (un_dim false false) Sh ltac:(lia) (Z.divide_1_l _)) as (gs & g & x & y & z & v & A1 & A2 & A3 & A4).
    exists d3, docs, gs, g, x, y, z, v. auto 8. }
  split; [|split].
  - exists s1, d1, ls1, s2, d2, ls2. split; [exact E1|]. split; [exact E2|].
    destruct (coupled_results _ _ _ _ _ _ _ _ _ _ _ _ _ _ _ _ _ _ _ _ Hs Hb Hbo E2 (W _) ltac:(cbn; lia)) as (IO & s0 & s1' & w' & _ & _ & _ & HX). eapply Sn. intros _. exact (HX (G _)).
  - exists x1, dx1, lx1, x2, dx2, lx2. split; [exact X1|]. split; [exact X2|].
    destruct (decoupled_results _ _ _ _ _ _ _ _ _ _ _ _ _ _ _ _ _ _ _ _ _ Hs Hb X2 (W _) ltac:(cbn; lia)) as (O & X & x0 & x1' & w' & _ & _ & _ & HX). eapply Sn. intros _. exact (HX (G _)).
  - exists r1, dr1, lr1, r2, dr2, lr2. split; [exact Y1|]. split; [exact Y2|].
    destruct (moving_results _ _ _ _ _ _ _ _ _ _ _ _ _ _ _ _ _ _ _ _ _ _ Hs Hb Y2 (W _) ltac:(cbn; lia)) as (O & s0 & s1' & w' & _ & _ & _ & HX). eapply Sn. intros _. exact (HX (G _)).
Qed.
