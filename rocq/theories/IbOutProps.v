(** C59: the forces file. C60: restarts of the immersed-boundary solvers. *)
From Coq Require Import String ZifyBool.
From Verif Require Import Prelude ZSum RSum TypesModel GridModel GridSpec MeshProof IndexModel IndexSpec BoundaryModel BoundarySpec OperatorModel OperatorSpec
  MatModel BnModel BnSpec BnProof NSModel NSSpec NSProps NameModel DriverModel DriverSpec DriverProps BodyModel BodySpec DeltaModel DeltaSpec DeltaProof DeltaSum DeltaKernel DeltaProps IbpmModel IbpmSpec IbpmMove IbpmOsc IbpmProps MoveProps
  IbOutModel IbOutSpec IbOutLines IbOutProof IbOutDec IbOutTotal IbOutBalance.
Local Open Scope R_scope.

(** C59, coupled solver. After a run of [c_nt] steps from the step [c_nstart]
    (a new run, or a restarted one) the forces file has one line for each step
    of the run: line k is written for the state after k+1 steps; it is the time
    of that state, then for each body, in the order of the configuration, and
    each direction, minus the sum over the points of the body of the component
    of the force of that state. *)
Theorem coupled_forces_file : forall m D P types values name bodies t0 U0 p0 conv vs ps fuel conf mon d s2 d2 ls,
  mesh_setup m D -> bc_fits m types -> bodies_ok m D bodies ->
  ib_main fuel conf m D P types values name bodies t0 U0 p0 mon conv vs ps d = Ok (Some (s2, d2, ls)) ->
  exists O s0 s1 w, ib_init m D P types values name bodies t0 (c_nstart conf) U0 p0 = Ok (O, s0) /\
    io_initial_with s_ite (ib_write_solution m D O) (ib_read_restart m D O (n_forces m bodies)) conf s0 (run_ops (f_init_ops m conf) d) = Ok (s1, w) /\
    lenZ ls = Z.max 0 (c_nt conf) /\
    forall k l, nthZ ls k = Some l -> exists sk, run_steps (ib_advance m D P O conv vs ps) (Z.to_nat (k + 1)) s1 = Ok sk /\
      s_ite sk = (c_nstart conf + k + 1)%Z /\ s_t sk = s_t s1 + IZR (k + 1) * p_dt P /\
      reported m D bodies (s_t sk) (nest_sub (ib_lay O) 1 (s_p sk)) l.
Proof.
  intros m D P types values name bodies t0 U0 p0 conv vs ps fuel conf mon d s2 d2 ls Hs Hb Hbo.
  exact (c_lines m D P types values name bodies t0 U0 p0 conv vs ps Hbo fuel conf mon d s2 d2 ls).
Qed.
Print Assumptions coupled_forces_file.

(** C59, decoupled solver. *)
Theorem decoupled_forces_file : forall m D P types values name bodies t0 U0 p0 conv vs ps fs fuel conf mon d x2 d2 ls,
  mesh_setup m D -> bc_fits m types -> bodies_ok m D bodies ->
  d_main fuel conf m D P types values name bodies t0 U0 p0 mon conv vs ps fs d = Ok (Some (x2, d2, ls)) ->
  exists O X x0 x1 w, d_init m D P types values name bodies t0 (c_nstart conf) U0 p0 = Ok (O, X, x0) /\
    io_initial_with x_ite (d_write_solution m D) (d_read_restart m D (n_forces m bodies)) conf x0 (run_ops (f_init_ops m conf) d) = Ok (x1, w) /\
    lenZ ls = Z.max 0 (c_nt conf) /\
    forall k l, nthZ ls k = Some l -> exists xk,
      run_steps (d_advance m D P O X (n_forces m bodies) conv (d_assembleRHSForces m X) vs ps fs) (Z.to_nat (k + 1)) x1 = Ok xk /\
      x_ite xk = (c_nstart conf + k + 1)%Z /\ s_t (x_ns xk) = s_t (x_ns x1) + IZR (k + 1) * p_dt P /\
      reported m D bodies (s_t (x_ns xk)) (x_f xk) l.
Proof.
  intros m D P types values name bodies t0 U0 p0 conv vs ps fs fuel conf mon d x2 d2 ls Hs Hb Hbo.
  exact (e_lines m D P types values name bodies t0 U0 p0 conv vs ps Hbo fs fuel conf mon d x2 d2 ls).
Qed.
Print Assumptions decoupled_forces_file.

(** C59, moving bodies: the same, and at every line the points of the bodies
    are where the prescribed motion puts them at the time of the line. *)
Theorem moving_forces_file : forall m D P types values name bodies mo pos vel t0 U0 p0 conv vs ps fs fuel conf mon d s2 d2 ls,
  mesh_setup m D -> bc_fits m types -> bodies_ok m D bodies -> prescribed m D bodies mo pos vel ->
  r_main fuel conf m D P types values name bodies mo t0 U0 p0 mon conv vs ps fs d = Ok (Some (s2, d2, ls)) ->
  exists O s0 s1 w, r_init m D P types values name bodies t0 (c_nstart conf) U0 p0 = Ok (O, s0) /\
    io_initial_with r_ite (fun path s => d_write_solution m D path (r_x s)) (r_read_restart m D) conf s0 (run_ops (f_init_ops m conf) d) = Ok (s1, w) /\
    lenZ ls = Z.max 0 (c_nt conf) /\
    forall k l, nthZ ls k = Some l -> exists sk,
      run_steps (r_advance m D P O name mo conv vs ps fs) (Z.to_nat (k + 1)) s1 = Ok sk /\
      r_ite sk = (c_nstart conf + k + 1)%Z /\ s_t (x_ns (r_x sk)) = s_t (x_ns (r_x s1)) + IZR (k + 1) * p_dt P /\
      r_bodies sk = bodies_at bodies (pos (s_t (x_ns (r_x sk)))) /\
      reported m D bodies (s_t (x_ns (r_x sk))) (x_f (r_x sk)) l.
Proof.
  intros m D P types values name bodies mo pos vel t0 U0 p0 conv vs ps fs fuel conf mon d s2 d2 ls Hs Hb Hbo Hmo H.
  destruct (v_lines m D P types values name bodies t0 U0 p0 conv vs ps Hs Hb Hbo mo pos vel fs Hmo fuel conf mon d s2 d2 ls H) as (O & s0 & s1 & w & A & B & _ & _ & C & E).
  exists O, s0, s1, w. auto.
Qed.
Print Assumptions moving_forces_file.

(** C59, what the numbers mean: on a mesh that is uniform
    around the bodies, with the points of the bodies
    a kernel radius away from the boundary of the domain, the sum of the
    numbers of a line for one direction over the bodies is minus the total
    force on the fluid in that direction, the sum over the velocity points of
    the spread force times the volume of a cell. *)
Theorem forces_balance : forall m D h B name bodies types values hist E H K w t f l c,
  mesh_setup m D -> uniform_around m h w bodies -> bodies_ok m D bodies -> getKernel name = Ok (K, w) ->
  bc_fits m types -> boundary_after m D types values hist B -> wide_enough m w ->
  (forall b i X, located bodies b i X -> clear m h (radius name) X) ->
  ib_operators m D B name bodies = Ok (E, H) ->
  reported m D bodies t f l -> (0 <= c < m_dim m)%Z ->
  zsum (fun id => if (component m D id =? c)%Z then cell_volume m h * mvec (n_forces m bodies) H f id else 0) 0 (n_velocity m) =
  - zsum (fun b => column l (1 + b * m_dim m + c)) 0 (lenZ bodies).
Proof. exact balance. Qed.
Print Assumptions forces_balance.

(** C59. A new run with positive save intervals and bodies inside the domain
    never fails: it ends after its [c_nt] steps. *)
Theorem forces_runs_complete : forall m D P types values name bodies t0 U0 p0 conv vs ps fs mo pos vel fsm K w conf fuel d,
  mesh_setup m D -> bc_fits m types -> bodies_ok m D bodies -> getKernel name = Ok (K, w) -> (1 <= p_bn P)%Z ->
  (forall b i X, located bodies b i X -> inside_domain m X /\ in_reach m types w X) ->
  (forall b bc r, nthZ bodies b = Some bc -> (0 <= r < nranks D)%Z -> (0 < b_l (fst bc) r)%Z) ->
  (forall hist B x, boundary_after m D types values ([OpICs U0] ++ hist) B -> is_ok (conv B x)) ->
  c_nstart conf = 0%Z -> c_nsave conf <> 0%Z -> c_nrestart conf <> 0%Z -> (Z.to_nat (c_nt conf) <= fuel)%nat ->
  (forall mon, exists s2 d2 ls, ib_main fuel conf m D P types values name bodies t0 U0 p0 mon conv vs ps d = Ok (Some (s2, d2, ls))) /\
  (forall mon, exists x2 d2 ls, d_main fuel conf m D P types values name bodies t0 U0 p0 mon conv vs ps fs d = Ok (Some (x2, d2, ls))) /\
  (prescribed m D bodies mo pos vel ->
   (forall j b i X, (1 <= j)%Z -> (j <= c_nt conf)%Z -> located (bodies_at bodies (pos (t0 + IZR j * p_dt P))) b i X -> inside_domain m X /\ in_reach m types w X) ->
   forall mon, exists s2 d2 ls, r_main fuel conf m D P types values name bodies mo t0 U0 p0 mon conv vs ps fsm d = Ok (Some (s2, d2, ls))).
Proof.
  intros m D P types values name bodies t0 U0 p0 conv vs ps fs mo pos vel fsm K w conf fuel d Hs Hb Hbo HK Hn Hin Hrk Hc H0 N1 N2 Hf.
  split; [|split].
  - exact (c_total m D P types values name bodies t0 U0 p0 conv vs ps K w Hs Hb Hbo HK Hn Hin Hrk Hc conf fuel d H0 N1 N2 Hf).
  - exact (e_total m D P types values name bodies t0 U0 p0 conv vs ps K w Hs Hb Hbo HK Hn Hin Hrk Hc conf fuel d H0 N1 N2 Hf fs).
  - intros Hmo Hin2 mon. exact (v_total m D P types values name bodies t0 U0 p0 conv vs ps K w Hs Hb Hbo HK Hn Hin Hrk Hc conf fuel d H0 N1 N2 Hf mo pos vel fsm mon Hmo Hin2).
Qed.
Print Assumptions forces_runs_complete.

(** C60, coupled solver. A run of k + j steps, and a run of k steps followed by
    a restarted run of j steps: the same velocity, pressure, forces and history,
    and the lines of the forces file of the long run are the lines of the
    first, then those of the second. *)
Theorem coupled_restart : forall m D P types values name bodies t0 U0 p0 conv vs ps monA mon1 mon2 confA conf1 conf2 fuelA fuel1 fuel2 d sA dA lsA s1' d1 ls1 k j,
  mesh_setup m D -> bc_fits m types -> bodies_ok m D bodies -> no_convective m types ->
  conv_respects m D conv -> vsolve_respects (n_velocity m) vs -> psolve_respects (n_pressure m + n_forces m bodies) ps ->
  c_out confA = c_out conf1 -> c_out conf2 = c_out conf1 -> c_nstart confA = c_nstart conf1 -> (0 <= c_nstart conf1)%Z ->
  writes_elsewhere (c_out conf1) mon1 ->
  c_nt conf1 = Z.of_nat k -> (1 <= k)%nat -> c_nt confA = Z.of_nat (k + j) ->
  c_nstart conf2 = (c_nstart conf1 + Z.of_nat k)%Z -> c_nt conf2 = Z.of_nat j ->
  ib_main fuelA confA m D P types values name bodies t0 U0 p0 monA conv vs ps d = Ok (Some (sA, dA, lsA)) ->
  ib_main fuel1 conf1 m D P types values name bodies t0 U0 p0 mon1 conv vs ps d = Ok (Some (s1', d1, ls1)) ->
  (c_nrestart conf1 | c_nstart conf2)%Z ->
  (c_nsave conf1 | c_nstart conf2)%Z \/ d (solution_path (c_out conf1) (c_nstart conf2)) = None ->
  c_nsave conf2 <> 0%Z -> c_nrestart conf2 <> 0%Z -> (j <= fuel2)%nat ->
  exists sB dB ls2, ib_main fuel2 conf2 m D P types values name bodies t0 U0 p0 mon2 conv vs ps d1 = Ok (Some (sB, dB, ls2)) /\
    same_coupled m (n_forces m bodies) sA sB /\ lsA = ls1 ++ ls2.
Proof.
  intros m D P types values name bodies t0 U0 p0 conv vs ps monA mon1 mon2 confA conf1 conf2 fuelA fuel1 fuel2 d sA dA lsA s1' d1 ls1 k j Hs Hb Hbo Hnc Hcv Hvs Hps.
  eapply c_restart; eassumption.
Qed.
Print Assumptions coupled_restart.

(** C60, decoupled solver. *)
Theorem decoupled_restart : forall m D P types values name bodies t0 U0 p0 conv vs ps fs monA mon1 mon2 confA conf1 conf2 fuelA fuel1 fuel2 d sA dA lsA s1' d1 ls1 k j,
  mesh_setup m D -> bc_fits m types -> bodies_ok m D bodies -> no_convective m types ->
  conv_respects m D conv -> vsolve_respects (n_velocity m) vs -> psolve_respects (n_pressure m) ps -> psolve_respects (n_forces m bodies) fs ->
  c_out confA = c_out conf1 -> c_out conf2 = c_out conf1 -> c_nstart confA = c_nstart conf1 -> (0 <= c_nstart conf1)%Z ->
  writes_elsewhere (c_out conf1) mon1 ->
  c_nt conf1 = Z.of_nat k -> (1 <= k)%nat -> c_nt confA = Z.of_nat (k + j) ->
  c_nstart conf2 = (c_nstart conf1 + Z.of_nat k)%Z -> c_nt conf2 = Z.of_nat j ->
  d_main fuelA confA m D P types values name bodies t0 U0 p0 monA conv vs ps fs d = Ok (Some (sA, dA, lsA)) ->
  d_main fuel1 conf1 m D P types values name bodies t0 U0 p0 mon1 conv vs ps fs d = Ok (Some (s1', d1, ls1)) ->
  (c_nrestart conf1 | c_nstart conf2)%Z ->
  (c_nsave conf1 | c_nstart conf2)%Z \/ d (solution_path (c_out conf1) (c_nstart conf2)) = None ->
  c_nsave conf2 <> 0%Z -> c_nrestart conf2 <> 0%Z -> (j <= fuel2)%nat ->
  exists sB dB ls2, d_main fuel2 conf2 m D P types values name bodies t0 U0 p0 mon2 conv vs ps fs d1 = Ok (Some (sB, dB, ls2)) /\
    same_decoupled m (n_forces m bodies) sA sB /\ lsA = ls1 ++ ls2.
Proof.
  intros m D P types values name bodies t0 U0 p0 conv vs ps fs monA mon1 mon2 confA conf1 conf2 fuelA fuel1 fuel2 d sA dA lsA s1' d1 ls1 k j Hs Hb Hbo Hnc Hcv Hvs Hps Hfs.
  eapply e_restart; eassumption.
Qed.
Print Assumptions decoupled_restart.

(** C60, moving bodies whose motion depends on the time only; the second run
    makes at least one step. *)
Theorem moving_restart : forall m D P types values name bodies mo pos vel t0 U0 p0 conv vs ps fs monA mon1 mon2 confA conf1 conf2 fuelA fuel1 fuel2 d sA dA lsA s1' d1 ls1 k j,
  mesh_setup m D -> bc_fits m types -> bodies_ok m D bodies -> prescribed m D bodies mo pos vel -> no_convective m types ->
  conv_respects m D conv -> vsolve_respects (n_velocity m) vs -> psolve_respects (n_pressure m) ps -> (forall A, psolve_respects (n_forces m bodies) (fs A)) ->
  c_out confA = c_out conf1 -> c_out conf2 = c_out conf1 -> c_nstart confA = c_nstart conf1 -> (0 <= c_nstart conf1)%Z ->
  writes_elsewhere (c_out conf1) mon1 ->
  c_nt conf1 = Z.of_nat k -> (1 <= k)%nat -> c_nt confA = Z.of_nat (k + j) ->
  c_nstart conf2 = (c_nstart conf1 + Z.of_nat k)%Z -> c_nt conf2 = Z.of_nat j -> (1 <= j)%nat ->
  r_main fuelA confA m D P types values name bodies mo t0 U0 p0 monA conv vs ps fs d = Ok (Some (sA, dA, lsA)) ->
  r_main fuel1 conf1 m D P types values name bodies mo t0 U0 p0 mon1 conv vs ps fs d = Ok (Some (s1', d1, ls1)) ->
  (c_nrestart conf1 | c_nstart conf2)%Z ->
  (c_nsave conf1 | c_nstart conf2)%Z \/ d (solution_path (c_out conf1) (c_nstart conf2)) = None ->
  c_nsave conf2 <> 0%Z -> c_nrestart conf2 <> 0%Z -> (j <= fuel2)%nat ->
  exists sB dB ls2, r_main fuel2 conf2 m D P types values name bodies mo t0 U0 p0 mon2 conv vs ps fs d1 = Ok (Some (sB, dB, ls2)) /\
    same_decoupled m (n_forces m bodies) (r_x sA) (r_x sB) /\ r_bodies sA = r_bodies sB /\ lsA = ls1 ++ ls2.
Proof.
  intros m D P types values name bodies mo pos vel t0 U0 p0 conv vs ps fs monA mon1 mon2 confA conf1 conf2 fuelA fuel1 fuel2 d sA dA lsA s1' d1 ls1 k j Hs Hb Hbo Hmo Hnc Hcv Hvs Hps Hfs.
  eapply v_restart; eassumption.
Qed.
Print Assumptions moving_restart.

(** ** Concrete cases *)

(** Two oscillating points (fixed for the first two solvers) in the middle of
    the walled box on two ranks; runs of 5 and of 3 + 2 steps with restart data
    every 3 steps; the forces file of the long run has 5 lines of 3 numbers. *)
Example ib_restart_case : forall name K w U0 p0, getKernel name = Ok (K, w) ->
  let m := un_mesh false false in let D := un_dec false false in let bodies := pair [4; 4] [13 / 4; 9 / 2] in let P := euler_par in
  let Am := osc_Am 1 1 in let Um := osc_Um 1 Am in let mo := osc_motion (nranks D) 1 Am Um (default_body 2 2) [[4; 4]; [13 / 4; 9 / 2]] in
  let types := un_types false false in let values := fun _ _ => 0 in
  let conv := fun (_ : boundary) (x : vec) => Ok x in let vs := fun (_ b : vec) => b in
  let confA := mkConf "o" "l" 0 5 1 3 in let conf1 := mkConf "o" "l" 0 3 1 3 in let conf2 := mkConf "o" "l" 3 2 1 3 in
  (exists sA dA lsA s1 d1 ls1 s2 d2 ls2,
     ib_main 5 confA m D P types values name bodies 0 U0 p0 (fun _ => []) conv vs vs dsk0 = Ok (Some (sA, dA, lsA)) /\
     ib_main 3 conf1 m D P types values name bodies 0 U0 p0 (fun _ => []) conv vs vs dsk0 = Ok (Some (s1, d1, ls1)) /\
     ib_main 2 conf2 m D P types values name bodies 0 U0 p0 (fun _ => []) conv vs vs d1 = Ok (Some (s2, d2, ls2)) /\
     same_coupled m (n_forces m bodies) sA s2 /\ lsA = ls1 ++ ls2 /\ lenZ ls1 = 3%Z /\ lenZ ls2 = 2%Z) /\
  (exists sA dA lsA s1 d1 ls1 s2 d2 ls2,
     d_main 5 confA m D P types values name bodies 0 U0 p0 (fun _ => []) conv vs vs vs dsk0 = Ok (Some (sA, dA, lsA)) /\
     d_main 3 conf1 m D P types values name bodies 0 U0 p0 (fun _ => []) conv vs vs vs dsk0 = Ok (Some (s1, d1, ls1)) /\
     d_main 2 conf2 m D P types values name bodies 0 U0 p0 (fun _ => []) conv vs vs vs d1 = Ok (Some (s2, d2, ls2)) /\
     same_decoupled m (n_forces m bodies) sA s2 /\ lsA = ls1 ++ ls2 /\ lenZ ls1 = 3%Z /\ lenZ ls2 = 2%Z) /\
  (exists sA dA lsA s1 d1 ls1 s2 d2 ls2,
     r_main 5 confA m D P types values name bodies mo 0 U0 p0 (fun _ => []) conv vs vs (fun _ => vs) dsk0 = Ok (Some (sA, dA, lsA)) /\
     r_main 3 conf1 m D P types values name bodies mo 0 U0 p0 (fun _ => []) conv vs vs (fun _ => vs) dsk0 = Ok (Some (s1, d1, ls1)) /\
     r_main 2 conf2 m D P types values name bodies mo 0 U0 p0 (fun _ => []) conv vs vs (fun _ => vs) d1 = Ok (Some (s2, d2, ls2)) /\
     same_decoupled m (n_forces m bodies) (r_x sA) (r_x s2) /\ r_bodies sA = r_bodies s2 /\ lsA = ls1 ++ ls2 /\ lenZ ls1 = 3%Z /\ lenZ ls2 = 2%Z).
Proof.
  intros name K w U0 p0 HK m D bodies P Am Um mo types values conv vs confA conf1 conf2. set (pos := osc_pos 1 Am [[4; 4]; [13 / 4; 9 / 2]]).
  pose proof (un_setup false false) as Hs. pose proof (un_fits false false) as Hb.
  pose proof (pair_ok false false [4; 4] [13 / 4; 9 / 2] eq_refl eq_refl) as Hbo. pose proof (un_uniform false false) as Hu.
  assert (W : (w <= 3)%Z) by (destruct (getKernel_cases _ _ _ HK) as [(_ & _ & -> & _)|(_ & _ & -> & _)]; lia).
  destruct (oscillating_cylinder_motion m D 1 1 1 (default_body 2 2) [[4; 4]; [13 / 4; 9 / 2]] (un_dim _ _) Hbo) as (Hmo & _ & EUm). fold Am Um mo pos in Hmo.
  assert (HA : forall y, Rabs (Am * sin y) <= 1 / 4).
  { intros y. rewrite Rabs_mult. assert (Rabs (sin y) <= 1) by (apply Rabs_le, SIN_bound). assert (HP : 3 < PI) by (pose proof PI2_3_2; lra).
    assert (0 < Am <= 1 / 4).
    { unfold Am, osc_Am. assert (0 < / (2 * PI)) by (apply Rinv_0_lt_compat; lra). assert (/ (2 * PI) <= / 4) by (apply Rinv_le_contravar; lra). unfold Rdiv. lra. }
    rewrite (Rabs_right Am) by lra. pose proof (Rabs_pos (sin y)). nra. }
  assert (HL : forall tt b i X, located (bodies_at bodies (pos tt)) b i X -> exists x y, X = [x; y] /\ 3 <= x < 5 /\ 3 <= y < 5).
  { intros tt b i X Hl. change (bodies_at bodies (pos tt)) with (pair [4 - Am * sin (2 * PI * 1 * tt); 4] [13 / 4 - Am * sin (2 * PI * 1 * tt); 9 / 2]) in Hl.
    specialize (HA (2 * PI * 1 * tt)). pose proof (Rle_abs (Am * sin (2 * PI * 1 * tt))) as G1. pose proof (Rle_abs (- (Am * sin (2 * PI * 1 * tt)))) as G2. rewrite Rabs_Ropp in G2.
    apply pair_located in Hl. destruct Hl as (_ & [(_ & ->)|(_ & ->)]); eexists; eexists; (split; [reflexivity|]); split; lra. }
  assert (H1 : forall b i X, located bodies b i X -> inside_domain m X /\ in_reach m types w X).
  { intros b i X Hl. apply pair_located in Hl. destruct Hl as (_ & [(_ & ->)|(_ & ->)]); apply un_reach; auto; lra. }
  assert (H2 : forall n j b i X, (1 <= j)%Z -> (j <= n)%Z -> located (bodies_at bodies (pos (0 + IZR j * p_dt P))) b i X -> inside_domain m X /\ in_reach m types w X).
  { intros n j b i X _ _ Hl. destruct (HL _ _ _ _ Hl) as (x & y & -> & Hx & Hy). now apply un_reach. }
  assert (Hc : forall hist B x, boundary_after m D types values ([OpICs U0] ++ hist) B -> is_ok (conv B x)) by (intros; eexists; reflexivity).
  pose proof (pair_ranks false false [4; 4] [13 / 4; 9 / 2]) as Hrk.
  assert (Hbn : (1 <= p_bn P)%Z) by (cbn; lia).
  assert (HT : forall conf fuel, c_nstart conf = 0%Z -> c_nsave conf <> 0%Z -> c_nrestart conf <> 0%Z -> (Z.to_nat (c_nt conf) <= fuel)%nat -> _) by
    (intros conf fuel; exact (forces_runs_complete m D P types values name bodies 0 U0 p0 conv vs vs vs mo pos (osc_velocity 1 Um) (fun _ => vs) K w conf fuel dsk0 Hs Hb Hbo HK Hbn H1 Hrk Hc)).
  destruct (HT confA 5%nat ltac:(reflexivity) ltac:(discriminate) ltac:(discriminate) ltac:(cbn; lia)) as (A1 & A2 & A3). specialize (A3 Hmo (H2 _)).
  destruct (HT conf1 3%nat ltac:(reflexivity) ltac:(discriminate) ltac:(discriminate) ltac:(cbn; lia)) as (B1 & B2 & B3). specialize (B3 Hmo (H2 _)).
  assert (Hnc : no_convective m types) by (intros f loc _ _; unfold types, un_types; destruct (loc <? 2)%Z; discriminate).
  assert (Hcv : conv_respects m D conv) by (intros B B' x x' y _ Hx E; injection E as <-; eexists; split; [reflexivity|exact Hx]).
  assert (Hvs : forall n, vsolve_respects n vs) by (intros n g g' b b' _ Hx; exact Hx).
  assert (Hps : forall n, psolve_respects n vs) by (intros n g g' b b' Hx; exact Hx).
  assert (Hdiv : (c_nsave conf1 | c_nstart conf2)%Z) by (exists 3%Z; reflexivity). assert (Hdr : (c_nrestart conf1 | c_nstart conf2)%Z) by (exists 1%Z; reflexivity).
  split; [|split].
  - destruct (A1 (fun _ => [])) as (sA & dA & lsA & HA1). destruct (B1 (fun _ => [])) as (s1 & d1 & ls1 & HB1).
    destruct (coupled_restart m D P types values name bodies 0 U0 p0 conv vs vs (fun _ => []) (fun _ => []) (fun _ => []) confA conf1 conf2 5 3 2 dsk0 sA dA lsA s1 d1 ls1 3 2
      Hs Hb Hbo Hnc Hcv (Hvs _) (Hps _)) as (s2 & d2 & ls2 & E & SC & EL); try reflexivity; try assumption; try (cbn; lia); [intros ? ? ? []|now left|].
    exists sA, dA, lsA, s1, d1, ls1, s2, d2, ls2. split; [exact HA1|]. split; [exact HB1|]. split; [exact E|]. split; [exact SC|]. split; [exact EL|].
    destruct (coupled_forces_file _ _ _ _ _ _ _ _ _ _ _ _ _ _ _ _ _ _ _ _ Hs Hb Hbo HB1) as (? & ? & ? & ? & _ & _ & L1 & _).
    destruct (coupled_forces_file _ _ _ _ _ _ _ _ _ _ _ _ _ _ _ _ _ _ _ _ Hs Hb Hbo E) as (? & ? & ? & ? & _ & _ & L2 & _). auto.
  - destruct (A2 (fun _ => [])) as (sA & dA & lsA & HA1). destruct (B2 (fun _ => [])) as (s1 & d1 & ls1 & HB1).
    destruct (decoupled_restart m D P types values name bodies 0 U0 p0 conv vs vs vs (fun _ => []) (fun _ => []) (fun _ => []) confA conf1 conf2 5 3 2 dsk0 sA dA lsA s1 d1 ls1 3 2
      Hs Hb Hbo Hnc Hcv (Hvs _) (Hps _) (Hps _)) as (s2 & d2 & ls2 & E & SC & EL); try reflexivity; try assumption; try (cbn; lia); [intros ? ? ? []|now left|].
    exists sA, dA, lsA, s1, d1, ls1, s2, d2, ls2. split; [exact HA1|]. split; [exact HB1|]. split; [exact E|]. split; [exact SC|]. split; [exact EL|].
    destruct (decoupled_forces_file _ _ _ _ _ _ _ _ _ _ _ _ _ _ _ _ _ _ _ _ _ Hs Hb Hbo HB1) as (? & ? & ? & ? & ? & _ & _ & L1 & _).
    destruct (decoupled_forces_file _ _ _ _ _ _ _ _ _ _ _ _ _ _ _ _ _ _ _ _ _ Hs Hb Hbo E) as (? & ? & ? & ? & ? & _ & _ & L2 & _). auto.
  - destruct (A3 (fun _ => [])) as (sA & dA & lsA & HA1). destruct (B3 (fun _ => [])) as (s1 & d1 & ls1 & HB1).
    destruct (moving_restart m D P types values name bodies mo pos (osc_velocity 1 Um) 0 U0 p0 conv vs vs (fun _ => vs) (fun _ => []) (fun _ => []) (fun _ => []) confA conf1 conf2 5 3 2 dsk0 sA dA lsA s1 d1 ls1 3 2
      Hs Hb Hbo Hmo Hnc Hcv (Hvs _) (Hps _) (fun _ => Hps _)) as (s2 & d2 & ls2 & E & SC & EB & EL); try reflexivity; try assumption; try (cbn; lia); [intros ? ? ? []|now left|].
    exists sA, dA, lsA, s1, d1, ls1, s2, d2, ls2. split; [exact HA1|]. split; [exact HB1|]. split; [exact E|]. split; [exact SC|]. split; [exact EB|]. split; [exact EL|].
    destruct (moving_forces_file _ _ _ _ _ _ _ _ _ _ _ _ _ _ _ _ _ _ _ _ _ _ _ _ Hs Hb Hbo Hmo HB1) as (? & ? & ? & ? & _ & _ & L1 & _).
    destruct (moving_forces_file _ _ _ _ _ _ _ _ _ _ _ _ _ _ _ _ _ _ _ _ _ _ _ _ Hs Hb Hbo Hmo E) as (? & ? & ? & ? & _ & _ & L2 & _). auto.
Qed.

(** Two points with the forces (1, 2) and (3, 4): the total force on the fluid
    in the second direction is 6, and the line reports -6. *)
Example forces_balance_case : forall name K w, getKernel name = Ok (K, w) ->
  let m := un_mesh false false in let D := un_dec false false in let bodies := pair [4; 4] [13 / 4; 9 / 2] in let f := fun i => IZR (i + 1) in
  exists B E H, boundary_after m D (un_types false false) (fun _ _ => 0) [OpICs (fun _ => 0); OpEqs (fun _ => 0) 1; OpVals (fun _ => 0)] B /\ ib_operators m D B name bodies = Ok (E, H) /\
    reported m D bodies 0 f [0; - 4; - 6] /\
    zsum (fun id => if (component m D id =? 1)%Z then cell_volume m unit_h * mvec (n_forces m bodies) H f id else 0) 0 (n_velocity m) = 6.
Proof.
  intros name K w HK m D bodies f. destruct (delta_case false false name (fun _ _ => 0) (fun _ => 0) (fun _ => 0) 1 K w HK) as (Hs & Hu & Hbo & Hb & Hw & Hcl & B & E & H & HB & HE).
  exists B, E, H. split; [exact HB|]. split; [exact HE|].
  assert (R0 : reported m D bodies 0 f [0; - 4; - 6]).
  { exists (fun b i c => IZR (2 * i + c + 1)). split.
    - intros row b i c Er. unfold f. f_equal.
      change (body_layout (nranks D) (m_dim m) (map fst bodies)) with [(0, 0, 0); (0, 0, 1); (0, 1, 0); (0, 1, 1)]%Z in Er.
      pose proof (nthZ_Some_range _ _ _ Er) as Hr. change (lenZ _) with 4%Z in Hr. assert (row = 0 \/ row = 1 \/ row = 2 \/ row = 3)%Z as [->|[->|[->| ->]]] by lia; injection Er as <- <- <-; reflexivity.
    - change (flat_map _ _) with [- zsum (fun i => IZR (2 * i + 0 + 1)) 0 2; - zsum (fun i => IZR (2 * i + 1 + 1)) 0 2].
      unfold zsum. change (zrange 0 2) with [0; 1]%Z. cbn [sumR]. cbn [Z.mul Z.add Pos.add Pos.mul Pos.succ].
      apply (f_equal2 cons); [reflexivity|]. apply (f_equal2 cons); [ring|]. apply (f_equal2 cons); [ring|reflexivity]. }
  split; [exact R0|].
  rewrite (forces_balance m D unit_h B name bodies _ _ _ E H K w 0 f _ 1 Hs (uniform_is_around m D unit_h w bodies Hs Hu) Hbo HK Hb HB Hw Hcl HE R0) by (change (m_dim m) with 2%Z; lia).
  change (lenZ bodies) with 1%Z. unfold zsum. change (zrange 0 1) with [0%Z]. cbn [sumR]. change (column _ _) with (- 6). ring.
Qed.
