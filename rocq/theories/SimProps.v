(** The programs with the convection operator of the code in place of a
    parameter (C38, C39, C40, C59, C60). *)
From Coq Require Import String ZifyBool.
From Verif Require Import Prelude ZSum RSum TypesModel GridModel GridSpec MeshProof IndexModel IndexSpec BoundaryModel BoundarySpec OperatorModel OperatorSpec
  MatModel BnModel BnSpec BnProof NSModel NSSpec NSProps NameModel DriverModel DriverSpec DriverProps BodyModel BodySpec DeltaModel DeltaSpec DeltaProof DeltaSum DeltaKernel DeltaProps IbpmModel IbpmSpec IbpmMove IbpmOsc IbpmProps MoveProps
  IbOutModel IbOutSpec IbOutProps BoundaryProof ExampleSetup ConvProps ConvModel ConvRespect DecConv.
Local Open Scope R_scope.

(** C38. A new run of the Navier-Stokes program completes, whatever the linear
    solvers return. *)
Theorem simulation_completes : forall m D P types values t0 U0 p0 vs ps conf mon fuel d, mesh_setup m D -> bc_fits m types -> (1 <= p_bn P)%Z ->
  c_nstart conf = 0%Z -> c_nsave conf <> 0%Z -> c_nrestart conf <> 0%Z -> (c_nt conf <= Z.of_nat fuel)%Z ->
  exists ops s1 s2 d2 tr, started conf m D P types values t0 U0 p0 d ops s1 /\
    ns_main fuel conf m D P types values t0 U0 p0 mon (convection m D) vs ps d = Ok (Some (s2, d2, tr)).
Proof.
  intros m D P types values t0 U0 p0 vs ps conf mon fuel d Hs Hb Hn. apply run_completes; auto.
  intros h B x HB. eapply convection_total; eauto.
Qed.
Print Assumptions simulation_completes.

(** C39. A run of k + j steps and a run of k steps followed by a restarted run
    of j steps. *)
Theorem simulation_restart : forall m D P types values t0 U0 p0 vs ps monA mon1 mon2 confA conf1 conf2 fuelA fuel1 fuel2 d sA dA trA s1' d1 tr1 k j,
  mesh_setup m D -> bc_fits m types -> no_convective m types ->
  vsolve_respects (n_velocity m) vs -> psolve_respects (n_pressure m) ps ->
  c_out confA = c_out conf1 -> c_out conf2 = c_out conf1 -> c_nstart confA = c_nstart conf1 -> (0 <= c_nstart conf1)%Z ->
  probes_elsewhere (c_out conf1) mon1 ->
  c_nt conf1 = Z.of_nat k -> (1 <= k)%nat -> c_nt confA = Z.of_nat (k + j) ->
  c_nstart conf2 = (c_nstart conf1 + Z.of_nat k)%Z -> c_nt conf2 = Z.of_nat j ->
  ns_main fuelA confA m D P types values t0 U0 p0 monA (convection m D) vs ps d = Ok (Some (sA, dA, trA)) ->
  ns_main fuel1 conf1 m D P types values t0 U0 p0 mon1 (convection m D) vs ps d = Ok (Some (s1', d1, tr1)) ->
  (c_nrestart conf1 | c_nstart conf2)%Z ->
  (c_nsave conf1 | c_nstart conf2)%Z \/ d (solution_path (c_out conf1) (c_nstart conf2)) = None ->
  c_nsave conf2 <> 0%Z -> c_nrestart conf2 <> 0%Z -> (j <= fuel2)%nat ->
  exists sB dB trB, ns_main fuel2 conf2 m D P types values t0 U0 p0 mon2 (convection m D) vs ps d1 = Ok (Some (sB, dB, trB)) /\ same_fields m sA sB.
Proof.
  intros m D P types values t0 U0 p0 vs ps monA mon1 mon2 confA conf1 conf2 fuelA fuel1 fuel2 d sA dA trA s1' d1 tr1 k j Hs Hb Hn Hv Hp.
  eapply restart_equivalent; eauto. exact (convection_respects m D (setup_facts _ _ Hs)).
Qed.
Print Assumptions simulation_restart.

(** C40. Recovery after a crash at any point of a run. *)
Theorem simulation_recovers : forall m D P types values t0 U0 p0 vs ps conf conf2 mon mon2 fuel fuel2 d s2 d2 tr ops s1 done rest d' tr1 n o tr2 k j,
  mesh_setup m D -> bc_fits m types -> no_convective m types ->
  vsolve_respects (n_velocity m) vs -> psolve_respects (n_pressure m) ps ->
  started conf m D P types values t0 U0 p0 d ops s1 ->
  ns_main fuel conf m D P types values t0 U0 p0 mon (convection m D) vs ps d = Ok (Some (s2, d2, tr)) ->
  probes_elsewhere (c_out conf) mon -> (0 <= c_nstart conf)%Z ->
  init_ops m conf ++ trace_ops tr = done ++ rest -> crash_at done rest d d' ->
  tr = tr1 ++ (n, o) :: tr2 -> (length (init_ops m conf ++ trace_ops (tr1 ++ [(n, o)])) <= length done)%nat ->
  n = (c_nstart conf + Z.of_nat k)%Z -> (1 <= k)%nat -> c_nt conf = Z.of_nat (k + j) ->
  (c_nrestart conf | n)%Z -> (c_nsave conf | n)%Z \/ d (solution_path (c_out conf) n) = None ->
  c_out conf2 = c_out conf -> c_nstart conf2 = n -> c_nt conf2 = Z.of_nat j -> c_nsave conf2 <> 0%Z -> c_nrestart conf2 <> 0%Z -> (j <= fuel2)%nat ->
  exists sB dB trB, ns_main fuel2 conf2 m D P types values t0 U0 p0 mon2 (convection m D) vs ps d' = Ok (Some (sB, dB, trB)) /\ same_fields m s2 sB.
Proof.
  intros m D P types values t0 U0 p0 vs ps conf conf2 mon mon2 fuel fuel2 d s2 d2 tr ops s1 done rest d' tr1 n o tr2 k j Hs Hb Hn Hv Hp.
  eapply crash_recovery; eauto. exact (convection_respects m D (setup_facts _ _ Hs)).
Qed.
Print Assumptions simulation_recovers.

(** C59. New runs of the three immersed-boundary programs complete. *)
Theorem ib_simulations_complete : forall m D P types values name bodies t0 U0 p0 vs ps fs mo pos vel fsm K w conf fuel d,
  mesh_setup m D -> bc_fits m types -> bodies_ok m D bodies -> getKernel name = Ok (K, w) -> (1 <= p_bn P)%Z ->
  (forall b i X, located bodies b i X -> inside_domain m X /\ in_reach m types w X) ->
  (forall b bc r, nthZ bodies b = Some bc -> (0 <= r < nranks D)%Z -> (0 < b_l (fst bc) r)%Z) ->
  c_nstart conf = 0%Z -> c_nsave conf <> 0%Z -> c_nrestart conf <> 0%Z -> (Z.to_nat (c_nt conf) <= fuel)%nat ->
  (forall mon, exists s2 d2 ls, ib_main fuel conf m D P types values name bodies t0 U0 p0 mon (convection m D) vs ps d = Ok (Some (s2, d2, ls))) /\
  (forall mon, exists x2 d2 ls, d_main fuel conf m D P types values name bodies t0 U0 p0 mon (convection m D) vs ps fs d = Ok (Some (x2, d2, ls))) /\
  (prescribed m D bodies mo pos vel ->
   (forall j b i X, (1 <= j)%Z -> (j <= c_nt conf)%Z -> located (bodies_at bodies (pos (t0 + IZR j * p_dt P))) b i X -> inside_domain m X /\ in_reach m types w X) ->
   forall mon, exists s2 d2 ls, r_main fuel conf m D P types values name bodies mo t0 U0 p0 mon (convection m D) vs ps fsm d = Ok (Some (s2, d2, ls))).
Proof.
  intros m D P types values name bodies t0 U0 p0 vs ps fs mo pos vel fsm K w conf fuel d Hs Hb Hbo HK Hn Hin Hrk.
  apply (forces_runs_complete m D P types values name bodies t0 U0 p0 (convection m D) vs ps fs mo pos vel fsm K w conf fuel d); auto.
  intros hist B x HB. eapply convection_total; eauto.
Qed.
Print Assumptions ib_simulations_complete.

(** C60. Restarts of the three immersed-boundary programs. *)
Theorem coupled_simulation_restart : forall m D P types values name bodies t0 U0 p0 vs ps monA mon1 mon2 confA conf1 conf2 fuelA fuel1 fuel2 d sA dA lsA s1' d1 ls1 k j,
  mesh_setup m D -> bc_fits m types -> bodies_ok m D bodies -> no_convective m types ->
  vsolve_respects (n_velocity m) vs -> psolve_respects (n_pressure m + n_forces m bodies) ps ->
  c_out confA = c_out conf1 -> c_out conf2 = c_out conf1 -> c_nstart confA = c_nstart conf1 -> (0 <= c_nstart conf1)%Z ->
  writes_elsewhere (c_out conf1) mon1 ->
  c_nt conf1 = Z.of_nat k -> (1 <= k)%nat -> c_nt confA = Z.of_nat (k + j) ->
  c_nstart conf2 = (c_nstart conf1 + Z.of_nat k)%Z -> c_nt conf2 = Z.of_nat j ->
  ib_main fuelA confA m D P types values name bodies t0 U0 p0 monA (convection m D) vs ps d = Ok (Some (sA, dA, lsA)) ->
  ib_main fuel1 conf1 m D P types values name bodies t0 U0 p0 mon1 (convection m D) vs ps d = Ok (Some (s1', d1, ls1)) ->
  (c_nrestart conf1 | c_nstart conf2)%Z ->
  (c_nsave conf1 | c_nstart conf2)%Z \/ d (solution_path (c_out conf1) (c_nstart conf2)) = None ->
  c_nsave conf2 <> 0%Z -> c_nrestart conf2 <> 0%Z -> (j <= fuel2)%nat ->
  exists sB dB ls2, ib_main fuel2 conf2 m D P types values name bodies t0 U0 p0 mon2 (convection m D) vs ps d1 = Ok (Some (sB, dB, ls2)) /\
    same_coupled m (n_forces m bodies) sA sB /\ lsA = ls1 ++ ls2.
Proof.
  intros m D P types values name bodies t0 U0 p0 vs ps monA mon1 mon2 confA conf1 conf2 fuelA fuel1 fuel2 d sA dA lsA s1' d1 ls1 k j Hs Hb Hbo Hnc.
  apply (coupled_restart m D P types values name bodies t0 U0 p0 (convection m D) vs ps monA mon1 mon2 confA conf1 conf2 fuelA fuel1 fuel2 d sA dA lsA s1' d1 ls1 k j); auto.
  exact (convection_respects m D (setup_facts _ _ Hs)).
Qed.
Print Assumptions coupled_simulation_restart.
Theorem decoupled_simulation_restart : forall m D P types values name bodies t0 U0 p0 vs ps fs monA mon1 mon2 confA conf1 conf2 fuelA fuel1 fuel2 d sA dA lsA s1' d1 ls1 k j,
  mesh_setup m D -> bc_fits m types -> bodies_ok m D bodies -> no_convective m types ->
  vsolve_respects (n_velocity m) vs -> psolve_respects (n_pressure m) ps -> psolve_respects (n_forces m bodies) fs ->
  c_out confA = c_out conf1 -> c_out conf2 = c_out conf1 -> c_nstart confA = c_nstart conf1 -> (0 <= c_nstart conf1)%Z ->
  writes_elsewhere (c_out conf1) mon1 ->
  c_nt conf1 = Z.of_nat k -> (1 <= k)%nat -> c_nt confA = Z.of_nat (k + j) ->
  c_nstart conf2 = (c_nstart conf1 + Z.of_nat k)%Z -> c_nt conf2 = Z.of_nat j ->
  d_main fuelA confA m D P types values name bodies t0 U0 p0 monA (convection m D) vs ps fs d = Ok (Some (sA, dA, lsA)) ->
  d_main fuel1 conf1 m D P types values name bodies t0 U0 p0 mon1 (convection m D) vs ps fs d = Ok (Some (s1', d1, ls1)) ->
  (c_nrestart conf1 | c_nstart conf2)%Z ->
  (c_nsave conf1 | c_nstart conf2)%Z \/ d (solution_path (c_out conf1) (c_nstart conf2)) = None ->
  c_nsave conf2 <> 0%Z -> c_nrestart conf2 <> 0%Z -> (j <= fuel2)%nat ->
  exists sB dB ls2, d_main fuel2 conf2 m D P types values name bodies t0 U0 p0 mon2 (convection m D) vs ps fs d1 = Ok (Some (sB, dB, ls2)) /\
    same_decoupled m (n_forces m bodies) sA sB /\ lsA = ls1 ++ ls2.
Proof.
  intros m D P types values name bodies t0 U0 p0 vs ps fs monA mon1 mon2 confA conf1 conf2 fuelA fuel1 fuel2 d sA dA lsA s1' d1 ls1 k j Hs Hb Hbo Hnc.
  apply (decoupled_restart m D P types values name bodies t0 U0 p0 (convection m D) vs ps fs monA mon1 mon2 confA conf1 conf2 fuelA fuel1 fuel2 d sA dA lsA s1' d1 ls1 k j); auto.
  exact (convection_respects m D (setup_facts _ _ Hs)).
Qed.
Print Assumptions decoupled_simulation_restart.
Theorem moving_simulation_restart : forall m D P types values name bodies mo pos vel t0 U0 p0 vs ps fs monA mon1 mon2 confA conf1 conf2 fuelA fuel1 fuel2 d sA dA lsA s1' d1 ls1 k j,
  mesh_setup m D -> bc_fits m types -> bodies_ok m D bodies -> prescribed m D bodies mo pos vel -> no_convective m types ->
  vsolve_respects (n_velocity m) vs -> psolve_respects (n_pressure m) ps -> (forall A, psolve_respects (n_forces m bodies) (fs A)) ->
  c_out confA = c_out conf1 -> c_out conf2 = c_out conf1 -> c_nstart confA = c_nstart conf1 -> (0 <= c_nstart conf1)%Z ->
  writes_elsewhere (c_out conf1) mon1 ->
  c_nt conf1 = Z.of_nat k -> (1 <= k)%nat -> c_nt confA = Z.of_nat (k + j) ->
  c_nstart conf2 = (c_nstart conf1 + Z.of_nat k)%Z -> c_nt conf2 = Z.of_nat j -> (1 <= j)%nat ->
  r_main fuelA confA m D P types values name bodies mo t0 U0 p0 monA (convection m D) vs ps fs d = Ok (Some (sA, dA, lsA)) ->
  r_main fuel1 conf1 m D P types values name bodies mo t0 U0 p0 mon1 (convection m D) vs ps fs d = Ok (Some (s1', d1, ls1)) ->
  (c_nrestart conf1 | c_nstart conf2)%Z ->
  (c_nsave conf1 | c_nstart conf2)%Z \/ d (solution_path (c_out conf1) (c_nstart conf2)) = None ->
  c_nsave conf2 <> 0%Z -> c_nrestart conf2 <> 0%Z -> (j <= fuel2)%nat ->
  exists sB dB ls2, r_main fuel2 conf2 m D P types values name bodies mo t0 U0 p0 mon2 (convection m D) vs ps fs d1 = Ok (Some (sB, dB, ls2)) /\
    same_decoupled m (n_forces m bodies) (r_x sA) (r_x sB) /\ r_bodies sA = r_bodies sB /\ lsA = ls1 ++ ls2.
Proof.
  intros m D P types values name bodies mo pos vel t0 U0 p0 vs ps fs monA mon1 mon2 confA conf1 conf2 fuelA fuel1 fuel2 d sA dA lsA s1' d1 ls1 k j Hs Hb Hbo Hmo Hnc.
  apply (moving_restart m D P types values name bodies mo pos vel t0 U0 p0 (convection m D) vs ps fs monA mon1 mon2 confA conf1 conf2 fuelA fuel1 fuel2 d sA dA lsA s1' d1 ls1 k j); auto.
  exact (convection_respects m D (setup_facts _ _ Hs)).
Qed.
Print Assumptions moving_simulation_restart.

(** The hypotheses of the restart are met: the walled 4 x 3 mesh on two ranks,
    runs of 5 and of 3 + 2 steps, restart data every 3 steps. *)
Example simulation_case : exists m D P types values monA confA conf1 vs ps sA dA trA s1' d1 tr1,
  mesh_setup m D /\ nranks D = 2%Z /\ bc_fits m types /\ no_convective m types /\ vsolve_respects (n_velocity m) vs /\ psolve_respects (n_pressure m) ps /\
  c_nt conf1 = 3%Z /\ c_nt confA = 5%Z /\ probes_elsewhere (c_out conf1) monA /\
  ns_main 5 confA m D P types values 0 (fun _ => 0) (fun _ => 0) monA (convection m D) vs ps dsk0 = Ok (Some (sA, dA, trA)) /\
  ns_main 5 conf1 m D P types values 0 (fun _ => 0) (fun _ => 0) monA (convection m D) vs ps dsk0 = Ok (Some (s1', d1, tr1)) /\
  exists conf2 sB dB trB, c_nstart conf2 = 3%Z /\ c_nt conf2 = 2%Z /\
    ns_main 5 conf2 m D P types values 0 (fun _ => 0) (fun _ => 0) monA (convection m D) vs ps d1 = Ok (Some (sB, dB, trB)) /\ same_fields m sA sB.
Proof.
  set (m := ex_mesh false false). set (D := ex_dec false false). set (P := mkPar (1/100) 1 1 [3/2; -(1/2)] (1/2) [1/2] true).
  set (types := wall_types false false). set (values := fun _ _ : Z => 1). set (mon := fun _ : nsstate => @nil fsop).
  set (vs := fun _ b : vec => b). set (ps := fun _ b : vec => b).
  set (confA := mkConf "o" "l" 0 5 1 3). set (conf1 := mkConf "o" "l" 0 3 1 3). set (conf2 := mkConf "o" "l" 3 2 1 3).
  assert (Hs : mesh_setup m D) by apply ex_setup.
  assert (Hb : bc_fits m types) by apply wall_fits.
  destruct (simulation_completes m D P types values 0 (fun _ => 0) (fun _ => 0) vs ps confA mon 5 dsk0 Hs Hb ltac:(cbn; lia) eq_refl ltac:(discriminate) ltac:(discriminate) ltac:(cbn; lia)) as (o1 & a1 & sA & dA & trA & _ & HA).
  destruct (simulation_completes m D P types values 0 (fun _ => 0) (fun _ => 0) vs ps conf1 mon 5 dsk0 Hs Hb ltac:(cbn; lia) eq_refl ltac:(discriminate) ltac:(discriminate) ltac:(cbn; lia)) as (o2 & a2 & s1' & d1 & tr1 & _ & H1).
  assert (Hn : no_convective m types) by (intros f loc _ _; unfold types, wall_types; destruct (loc <? 2)%Z; discriminate).
  assert (Hv : vsolve_respects (n_velocity m) vs) by (intros g g' b b' _ H; exact H).
  assert (Hp : psolve_respects (n_pressure m) ps) by (intros g g' b b' H; exact H).
  assert (He : probes_elsewhere (c_out conf1) mon) by (intros s o n []).
  destruct (simulation_restart m D P types values 0 (fun _ => 0) (fun _ => 0) vs ps mon mon mon confA conf1 conf2 5 5 5 dsk0 sA dA trA s1' d1 tr1 3 2 Hs Hb Hn Hv Hp
    eq_refl eq_refl eq_refl ltac:(cbn; lia) He eq_refl ltac:(lia) eq_refl eq_refl eq_refl HA H1 ltac:(exists 1%Z; reflexivity) (or_intror eq_refl) ltac:(discriminate) ltac:(discriminate) ltac:(lia))
    as (sB & dB & trB & HB & Hf).
  exists m, D, P, types, values, mon, confA, conf1, vs, ps, sA, dA, trA, s1', d1, tr1. repeat (split; [first [assumption|reflexivity]|]).
  exists conf2, sB, dB, trB. auto.
Qed.
