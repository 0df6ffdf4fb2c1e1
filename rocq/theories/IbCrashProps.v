(** C83: crashes of the immersed-boundary programs. *)
From Coq Require Import String ZifyBool.
From Verif Require Import Prelude ZSum RSum TypesModel GridModel GridSpec MeshProof IndexModel IndexSpec BoundaryModel BoundarySpec OperatorModel OperatorSpec
  MatModel BnModel BnSpec BnProof NSModel NSSpec NSProps NameModel DriverModel DriverSpec DriverProps BodyModel BodySpec DeltaModel DeltaSpec DeltaProof DeltaSum DeltaKernel DeltaProps IbpmModel IbpmSpec IbpmMove IbpmOsc IbpmProps MoveProps
  IbOutModel IbOutSpec IbOutLines IbOutProof IbOutDec IbOutTotal IbOutBalance IbOutProps IbCrashModel IbCrashProof.
Local Open Scope R_scope.

(** The operations of a run: executed in order they leave the disk of the run,
    and they are those of the start and of every step, in order. *)
Theorem coupled_file_operations : forall m D P types values name bodies t0 U0 p0 conv vs ps mon conf fuel d s2 d2 ls,
  ib_main fuel conf m D P types values name bodies t0 U0 p0 mon conv vs ps d = Ok (Some (s2, d2, ls)) ->
  exists tr, ib_file_ops fuel conf m D P types values name bodies t0 U0 p0 mon conv vs ps d = Ok tr /\ d2 = run_ops (trace_ops tr) d /\
    map fst tr = zrange (c_nstart conf) (c_nstart conf + Z.max 0 (c_nt conf) + 1).
Proof. intros *. apply c_ops. Qed.
Print Assumptions coupled_file_operations.
Theorem decoupled_file_operations : forall m D P types values name bodies t0 U0 p0 conv vs ps fs mon conf fuel d s2 d2 ls,
  d_main fuel conf m D P types values name bodies t0 U0 p0 mon conv vs ps fs d = Ok (Some (s2, d2, ls)) ->
  exists tr, d_file_ops fuel conf m D P types values name bodies t0 U0 p0 mon conv vs ps fs d = Ok tr /\ d2 = run_ops (trace_ops tr) d /\
    map fst tr = zrange (c_nstart conf) (c_nstart conf + Z.max 0 (c_nt conf) + 1).
Proof. intros *. apply e_ops. Qed.
Print Assumptions decoupled_file_operations.
Theorem moving_file_operations : forall m D P types values name bodies mo t0 U0 p0 conv vs ps fs mon conf fuel d s2 d2 ls,
  r_main fuel conf m D P types values name bodies mo t0 U0 p0 mon conv vs ps fs d = Ok (Some (s2, d2, ls)) ->
  exists tr, r_file_ops fuel conf m D P types values name bodies mo t0 U0 p0 mon conv vs ps fs d = Ok tr /\ d2 = run_ops (trace_ops tr) d /\
    map fst tr = zrange (c_nstart conf) (c_nstart conf + Z.max 0 (c_nt conf) + 1).
Proof. intros *. apply v_ops. Qed.
Print Assumptions moving_file_operations.

(** A crash at any point of the run: the file of a step whose write() was
    completed holds what it holds after the run without the crash. *)
Theorem coupled_crash_keeps_steps : forall m D P types values name bodies t0 U0 p0 conv vs ps mon conf fuel d s2 d2 ls tr done rest d' tr1 n o tr2,
  (0 <= c_nstart conf)%Z -> writes_elsewhere (c_out conf) mon ->
  ib_main fuel conf m D P types values name bodies t0 U0 p0 mon conv vs ps d = Ok (Some (s2, d2, ls)) ->
  ib_file_ops fuel conf m D P types values name bodies t0 U0 p0 mon conv vs ps d = Ok tr ->
  trace_ops tr = (done ++ rest)%list -> crash_at done rest d d' ->
  tr = (tr1 ++ (n, o) :: tr2)%list -> (length (trace_ops (tr1 ++ [(n, o)])) <= length done)%nat -> (c_nstart conf < n)%Z ->
  d' (solution_path (c_out conf) n) = d2 (solution_path (c_out conf) n).
Proof.
  intros * H0 Hm H Ht E C Et Hl Hn. destruct (c_crash _ _ _ _ _ _ _ _ _ _ _ _ _ _ _ _ _ _ _ _ _ _ _ _ _ _ _ _ H0 Hm H Ht E C Et Hl Hn) as (k & sk & dk & ls1 & _ & _ & _ & _ & X). exact X.
Qed.
Print Assumptions coupled_crash_keeps_steps.


Theorem decoupled_crash_keeps_steps : forall m D P types values name bodies t0 U0 p0 conv vs ps fs mon conf fuel d s2 d2 ls tr done rest d' tr1 n o tr2,
  (0 <= c_nstart conf)%Z -> writes_elsewhere (c_out conf) mon ->
  d_main fuel conf m D P types values name bodies t0 U0 p0 mon conv vs ps fs d = Ok (Some (s2, d2, ls)) ->
  d_file_ops fuel conf m D P types values name bodies t0 U0 p0 mon conv vs ps fs d = Ok tr ->
  trace_ops tr = (done ++ rest)%list -> crash_at done rest d d' ->
  tr = (tr1 ++ (n, o) :: tr2)%list -> (length (trace_ops (tr1 ++ [(n, o)])) <= length done)%nat -> (c_nstart conf < n)%Z ->
  d' (solution_path (c_out conf) n) = d2 (solution_path (c_out conf) n).
Proof.
  intros * H0 Hm H Ht E C Et Hl Hn. destruct (e_crash _ _ _ _ _ _ _ _ _ _ _ _ _ _ _ _ _ _ _ _ _ _ _ _ _ _ _ _ _ H0 Hm H Ht E C Et Hl Hn) as (k & sk & dk & ls1 & _ & _ & _ & _ & X). exact X.
Qed.
Print Assumptions decoupled_crash_keeps_steps.


Theorem moving_crash_keeps_steps : forall m D P types values name bodies mo t0 U0 p0 conv vs ps fs mon conf fuel d s2 d2 ls tr done rest d' tr1 n o tr2,
  (0 <= c_nstart conf)%Z -> writes_elsewhere (c_out conf) mon ->
  r_main fuel conf m D P types values name bodies mo t0 U0 p0 mon conv vs ps fs d = Ok (Some (s2, d2, ls)) ->
  r_file_ops fuel conf m D P types values name bodies mo t0 U0 p0 mon conv vs ps fs d = Ok tr ->
  trace_ops tr = (done ++ rest)%list -> crash_at done rest d d' ->
  tr = (tr1 ++ (n, o) :: tr2)%list -> (length (trace_ops (tr1 ++ [(n, o)])) <= length done)%nat -> (c_nstart conf < n)%Z ->
  d' (solution_path (c_out conf) n) = d2 (solution_path (c_out conf) n).
Proof.
  intros * H0 Hm H Ht E C Et Hl Hn. destruct (v_crash _ _ _ _ _ _ _ _ _ _ _ _ _ _ _ _ _ _ _ _ _ _ _ _ _ _ _ _ _ _ H0 Hm H Ht E C Et Hl Hn) as (k & sk & dk & ls1 & _ & _ & _ & _ & X). exact X.
Qed.
Print Assumptions moving_crash_keeps_steps.

(** After a crash at any point, the program restarted from a restart step whose
    write() was completed makes the remaining steps and ends in the state of the
    run without the crash; its forces file has the lines that the file of that
    run has from there on. *)
Theorem coupled_crash_recovery : forall m D P types values name bodies t0 U0 p0 conv vs ps mon mon2 conf conf2 fuel fuel2 d s2 d2 ls tr done rest d' tr1 n o tr2,
  mesh_setup m D -> bc_fits m types -> bodies_ok m D bodies -> no_convective m types ->
  conv_respects m D conv -> vsolve_respects (n_velocity m) vs -> psolve_respects (n_pressure m + n_forces m bodies) ps ->
  (0 <= c_nstart conf)%Z -> writes_elsewhere (c_out conf) mon ->
  ib_main fuel conf m D P types values name bodies t0 U0 p0 mon conv vs ps d = Ok (Some (s2, d2, ls)) ->
  ib_file_ops fuel conf m D P types values name bodies t0 U0 p0 mon conv vs ps d = Ok tr ->
  trace_ops tr = (done ++ rest)%list -> crash_at done rest d d' ->
  tr = (tr1 ++ (n, o) :: tr2)%list -> (length (trace_ops (tr1 ++ [(n, o)])) <= length done)%nat -> (c_nstart conf < n)%Z ->
  (c_nrestart conf | n)%Z -> (c_nsave conf | n)%Z \/ d (solution_path (c_out conf) n) = None ->
  c_out conf2 = c_out conf -> c_nstart conf2 = n -> c_nt conf2 = (c_nstart conf + c_nt conf - n)%Z -> 
  c_nsave conf2 <> 0%Z -> c_nrestart conf2 <> 0%Z -> (Z.to_nat (c_nt conf2) <= fuel2)%nat ->
  exists sB dB ls1 ls2, ib_main fuel2 conf2 m D P types values name bodies t0 U0 p0 mon2 conv vs ps d' = Ok (Some (sB, dB, ls2)) /\
    same_coupled m (n_forces m bodies) s2 sB /\ ls = (ls1 ++ ls2)%list /\ lenZ ls1 = (n - c_nstart conf)%Z.
Proof.
  intros * Hs Hb Hbo Hnc Hcv Hvs Hps H0 Hm H Ht E C Et Hl Hn Hr Hsv Ho2 Hn2 Ht2 N1 N2 Hf.
  destruct (c_crash _ _ _ _ _ _ _ _ _ _ _ _ _ _ _ _ _ _ _ _ _ _ _ _ _ _ _ _ H0 Hm H Ht E C Et Hl Hn) as (k & sk & dk & ls1 & Hk & Hle & H1 & X & _). cbv beta in H1.
  destruct (coupled_restart m D P types values name bodies t0 U0 p0 conv vs ps mon mon mon2 conf (for_steps conf k) conf2 fuel fuel fuel2 d s2 d2 ls sk dk ls1 k (Z.to_nat (c_nt conf2)))
    as (sB & dB & ls2 & EB & SB & EL); try assumption; try reflexivity; try (cbn [for_steps c_out c_nstart c_nt c_nsave c_nrestart]; lia).
  { cbn [for_steps c_nrestart]. now rewrite Hn2. }
  { cbn [for_steps c_nsave c_out]. now rewrite Hn2. }
  destruct (c_disk m D P types values name bodies t0 U0 p0 conv vs ps fuel2 conf2 mon2 dk d' sB dB ls2) as [dB' EB']; [lia|rewrite Hn2, Ho2; symmetry; exact X|exact EB|].
  exists sB, dB', ls1, ls2. split; [exact EB'|]. split; [exact SB|]. split; [exact EL|].
  destruct (coupled_forces_file _ _ _ _ _ _ _ _ _ _ _ _ _ _ _ _ _ _ _ _ Hs Hb Hbo H1) as (? & ? & ? & ? & _ & _ & L1 & _). rewrite L1. cbn [for_steps c_nt]. lia.
Qed.
Print Assumptions coupled_crash_recovery.


Theorem decoupled_crash_recovery : forall m D P types values name bodies t0 U0 p0 conv vs ps fs mon mon2 conf conf2 fuel fuel2 d s2 d2 ls tr done rest d' tr1 n o tr2,
  mesh_setup m D -> bc_fits m types -> bodies_ok m D bodies -> no_convective m types ->
  conv_respects m D conv -> vsolve_respects (n_velocity m) vs -> psolve_respects (n_pressure m) ps -> psolve_respects (n_forces m bodies) fs ->
  (0 <= c_nstart conf)%Z -> writes_elsewhere (c_out conf) mon ->
  d_main fuel conf m D P types values name bodies t0 U0 p0 mon conv vs ps fs d = Ok (Some (s2, d2, ls)) ->
  d_file_ops fuel conf m D P types values name bodies t0 U0 p0 mon conv vs ps fs d = Ok tr ->
  trace_ops tr = (done ++ rest)%list -> crash_at done rest d d' ->
  tr = (tr1 ++ (n, o) :: tr2)%list -> (length (trace_ops (tr1 ++ [(n, o)])) <= length done)%nat -> (c_nstart conf < n)%Z ->
  (c_nrestart conf | n)%Z -> (c_nsave conf | n)%Z \/ d (solution_path (c_out conf) n) = None ->
  c_out conf2 = c_out conf -> c_nstart conf2 = n -> c_nt conf2 = (c_nstart conf + c_nt conf - n)%Z -> 
  c_nsave conf2 <> 0%Z -> c_nrestart conf2 <> 0%Z -> (Z.to_nat (c_nt conf2) <= fuel2)%nat ->
  exists sB dB ls1 ls2, d_main fuel2 conf2 m D P types values name bodies t0 U0 p0 mon2 conv vs ps fs d' = Ok (Some (sB, dB, ls2)) /\
    same_decoupled m (n_forces m bodies) s2 sB /\ ls = (ls1 ++ ls2)%list /\ lenZ ls1 = (n - c_nstart conf)%Z.
Proof.
  intros * Hs Hb Hbo Hnc Hcv Hvs Hps Hfs H0 Hm H Ht E C Et Hl Hn Hr Hsv Ho2 Hn2 Ht2 N1 N2 Hf.
  destruct (e_crash _ _ _ _ _ _ _ _ _ _ _ _ _ _ _ _ _ _ _ _ _ _ _ _ _ _ _ _ _ H0 Hm H Ht E C Et Hl Hn) as (k & sk & dk & ls1 & Hk & Hle & H1 & X & _). cbv beta in H1.
  destruct (decoupled_restart m D P types values name bodies t0 U0 p0 conv vs ps fs mon mon mon2 conf (for_steps conf k) conf2 fuel fuel fuel2 d s2 d2 ls sk dk ls1 k (Z.to_nat (c_nt conf2)))
    as (sB & dB & ls2 & EB & SB & EL); try assumption; try reflexivity; try (cbn [for_steps c_out c_nstart c_nt c_nsave c_nrestart]; lia).
  { cbn [for_steps c_nrestart]. now rewrite Hn2. }
  { cbn [for_steps c_nsave c_out]. now rewrite Hn2. }
  destruct (e_disk m D P types values name bodies t0 U0 p0 conv vs ps fs fuel2 conf2 mon2 dk d' sB dB ls2) as [dB' EB']; [lia|rewrite Hn2, Ho2; symmetry; exact X|exact EB|].
  exists sB, dB', ls1, ls2. split; [exact EB'|]. split; [exact SB|]. split; [exact EL|].
  destruct (decoupled_forces_file _ _ _ _ _ _ _ _ _ _ _ _ _ _ _ _ _ _ _ _ _ Hs Hb Hbo H1) as (? & ? & ? & ? & ? & _ & _ & L1 & _). rewrite L1. cbn [for_steps c_nt]. lia.
Qed.
Print Assumptions decoupled_crash_recovery.

(** With moving bodies at least one step must be left. *)
Theorem moving_crash_recovery : forall m D P types values name bodies mo pos vel t0 U0 p0 conv vs ps fs mon mon2 conf conf2 fuel fuel2 d s2 d2 ls tr done rest d' tr1 n o tr2,
  mesh_setup m D -> bc_fits m types -> bodies_ok m D bodies -> prescribed m D bodies mo pos vel -> no_convective m types ->
  conv_respects m D conv -> vsolve_respects (n_velocity m) vs -> psolve_respects (n_pressure m) ps -> (forall A, psolve_respects (n_forces m bodies) (fs A)) ->
  (0 <= c_nstart conf)%Z -> writes_elsewhere (c_out conf) mon ->
  r_main fuel conf m D P types values name bodies mo t0 U0 p0 mon conv vs ps fs d = Ok (Some (s2, d2, ls)) ->
  r_file_ops fuel conf m D P types values name bodies mo t0 U0 p0 mon conv vs ps fs d = Ok tr ->
  trace_ops tr = (done ++ rest)%list -> crash_at done rest d d' ->
  tr = (tr1 ++ (n, o) :: tr2)%list -> (length (trace_ops (tr1 ++ [(n, o)])) <= length done)%nat -> (c_nstart conf < n)%Z ->
  (c_nrestart conf | n)%Z -> (c_nsave conf | n)%Z \/ d (solution_path (c_out conf) n) = None ->
  c_out conf2 = c_out conf -> c_nstart conf2 = n -> c_nt conf2 = (c_nstart conf + c_nt conf - n)%Z -> (1 <= c_nt conf2)%Z -> 
  c_nsave conf2 <> 0%Z -> c_nrestart conf2 <> 0%Z -> (Z.to_nat (c_nt conf2) <= fuel2)%nat ->
  exists sB dB ls1 ls2, r_main fuel2 conf2 m D P types values name bodies mo t0 U0 p0 mon2 conv vs ps fs d' = Ok (Some (sB, dB, ls2)) /\
    (same_decoupled m (n_forces m bodies) (r_x s2) (r_x sB) /\ r_bodies s2 = r_bodies sB) /\ ls = (ls1 ++ ls2)%list /\ lenZ ls1 = (n - c_nstart conf)%Z.
Proof.
  intros * Hs Hb Hbo Hmo Hnc Hcv Hvs Hps Hfs H0 Hm H Ht E C Et Hl Hn Hr Hsv Ho2 Hn2 Ht2 Hj N1 N2 Hf.
  destruct (v_crash _ _ _ _ _ _ _ _ _ _ _ _ _ _ _ _ _ _ _ _ _ _ _ _ _ _ _ _ _ _ H0 Hm H Ht E C Et Hl Hn) as (k & sk & dk & ls1 & Hk & Hle & H1 & X & _). cbv beta in H1.
  destruct (moving_restart m D P types values name bodies mo pos vel t0 U0 p0 conv vs ps fs mon mon mon2 conf (for_steps conf k) conf2 fuel fuel fuel2 d s2 d2 ls sk dk ls1 k (Z.to_nat (c_nt conf2)))
    as (sB & dB & ls2 & EB & SB & BB & EL); try assumption; try reflexivity; try (cbn [for_steps c_out c_nstart c_nt c_nsave c_nrestart]; lia).
  { cbn [for_steps c_nrestart]. now rewrite Hn2. }
  { cbn [for_steps c_nsave c_out]. now rewrite Hn2. }
  destruct (v_disk m D P types values name bodies mo t0 U0 p0 conv vs ps fs fuel2 conf2 mon2 dk d' sB dB ls2) as [dB' EB']; [lia|rewrite Hn2, Ho2; symmetry; exact X|exact EB|].
  exists sB, dB', ls1, ls2. split; [exact EB'|]. split; [split; [exact SB|exact BB]|]. split; [exact EL|].
  destruct (moving_forces_file _ _ _ _ _ _ _ _ _ _ _ _ _ _ _ _ _ _ _ _ _ _ _ _ Hs Hb Hbo Hmo H1) as (? & ? & ? & ? & _ & _ & L1 & _). rewrite L1. cbn [for_steps c_nt]. lia.
Qed.
Print Assumptions moving_crash_recovery.

(** The forces are the last dataset written. A file without them, as a crash
    just before leaves it (or a run of the Navier-Stokes program), is refused: no
    run continues from it. *)
Theorem restart_without_forces_refused : forall m D P types values name bodies mo t0 U0 p0 conv vs ps fs fsm fuel conf d Fl,
  (0 < c_nstart conf)%Z -> d (solution_path (c_out conf) (c_nstart conf)) = Some Fl -> f_sets Fl "/force" = None ->
  (forall mon r, ib_main fuel conf m D P types values name bodies t0 U0 p0 mon conv vs ps d <> Ok r) /\
  (forall mon r, d_main fuel conf m D P types values name bodies t0 U0 p0 mon conv vs ps fs d <> Ok r) /\
  (forall mon r, r_main fuel conf m D P types values name bodies mo t0 U0 p0 mon conv vs ps fsm d <> Ok r).
Proof.
  intros * H0 Hd Hf. split; [|split]; intros mon r; [exact (c_no_forces _ _ _ _ _ _ _ _ _ _ _ _ _ _ _ _ _ _ r H0 Hd Hf)|exact (e_no_forces _ _ _ _ _ _ _ _ _ _ _ _ _ _ _ _ _ _ _ r H0 Hd Hf)|exact (v_no_forces _ _ _ _ _ _ _ _ _ _ _ _ _ _ _ _ _ _ _ _ r H0 Hd Hf)].
Qed.
Print Assumptions restart_without_forces_refused.

(** ** A concrete case *)
Lemma steps_split (tr : list (Z * list fsop)) a b n : map fst tr = zrange a b -> (a <= n < b)%Z -> exists tr1 o tr2, tr = (tr1 ++ (n, o) :: tr2)%list /\ lenZ tr2 = (b - n - 1)%Z.
Proof.
  revert a. induction tr as [|[k o] tr IH]; intros a H Hn.
  - exfalso. cbn [map] in H. rewrite zrange_cons in H by lia. discriminate.
  - rewrite zrange_cons in H by lia. cbn [map fst] in H. injection H as -> H. destruct (Z.eq_dec a n) as [<-|N].
    + exists [], o, tr. split; [reflexivity|]. assert (L : lenZ (map fst tr) = lenZ tr) by (unfold lenZ; now rewrite map_length). rewrite <- L, H, zrange_lenZ by lia. lia.
    + destruct (IH (a + 1)%Z H ltac:(lia)) as (tr1 & o' & tr2 & -> & L). exists ((a, o) :: tr1), o', tr2. split; [reflexivity|exact L].
Qed.

(** The runs of 5 steps of ib_restart_case with restart data every 3 steps:
    wherever a crash happens after the write() of step 3, the run of 2 steps from
    step 3 ends where the run of 5 steps ends. *)
Example ib_crash_case : forall name K w U0 p0, getKernel name = Ok (K, w) ->
  let m := un_mesh false false in let D := un_dec false false in let bodies := pair [4; 4] [13 / 4; 9 / 2] in let P := euler_par in
  let Am := osc_Am 1 1 in let Um := osc_Um 1 Am in let mo := osc_motion (nranks D) 1 Am Um (default_body 2 2) [[4; 4]; [13 / 4; 9 / 2]] in
  let types := un_types false false in let values := fun _ _ => 0 in
  let conv := fun (_ : boundary) (x : vec) => Ok x in let vs := fun (_ b : vec) => b in
  let confA := mkConf "o" "l" 0 5 1 3 in let conf2 := mkConf "o" "l" 3 2 1 3 in
  (exists sA dA lsA tr tr1 o tr2,
     ib_main 5 confA m D P types values name bodies 0 U0 p0 (fun _ => []) conv vs vs dsk0 = Ok (Some (sA, dA, lsA)) /\
     ib_file_ops 5 confA m D P types values name bodies 0 U0 p0 (fun _ => []) conv vs vs dsk0 = Ok tr /\ tr = (tr1 ++ (3%Z, o) :: tr2)%list /\ lenZ tr2 = 2%Z /\
     forall done rest d', trace_ops tr = (done ++ rest)%list -> (length (trace_ops (tr1 ++ [(3%Z, o)])) <= length done)%nat -> crash_at done rest dsk0 d' ->
       exists sB dB ls1 ls2, ib_main 2 conf2 m D P types values name bodies 0 U0 p0 (fun _ => []) conv vs vs d' = Ok (Some (sB, dB, ls2)) /\
         same_coupled m (n_forces m bodies) sA sB /\ lsA = (ls1 ++ ls2)%list /\ lenZ ls1 = 3%Z) /\
  (exists sA dA lsA tr tr1 o tr2,
     d_main 5 confA m D P types values name bodies 0 U0 p0 (fun _ => []) conv vs vs vs dsk0 = Ok (Some (sA, dA, lsA)) /\
     d_file_ops 5 confA m D P types values name bodies 0 U0 p0 (fun _ => []) conv vs vs vs dsk0 = Ok tr /\ tr = (tr1 ++ (3%Z, o) :: tr2)%list /\ lenZ tr2 = 2%Z /\
     forall done rest d', trace_ops tr = (done ++ rest)%list -> (length (trace_ops (tr1 ++ [(3%Z, o)])) <= length done)%nat -> crash_at done rest dsk0 d' ->
       exists sB dB ls1 ls2, d_main 2 conf2 m D P types values name bodies 0 U0 p0 (fun _ => []) conv vs vs vs d' = Ok (Some (sB, dB, ls2)) /\
         same_decoupled m (n_forces m bodies) sA sB /\ lsA = (ls1 ++ ls2)%list /\ lenZ ls1 = 3%Z) /\
  (exists sA dA lsA tr tr1 o tr2,
     r_main 5 confA m D P types values name bodies mo 0 U0 p0 (fun _ => []) conv vs vs (fun _ => vs) dsk0 = Ok (Some (sA, dA, lsA)) /\
     r_file_ops 5 confA m D P types values name bodies mo 0 U0 p0 (fun _ => []) conv vs vs (fun _ => vs) dsk0 = Ok tr /\ tr = (tr1 ++ (3%Z, o) :: tr2)%list /\ lenZ tr2 = 2%Z /\
     forall done rest d', trace_ops tr = (done ++ rest)%list -> (length (trace_ops (tr1 ++ [(3%Z, o)])) <= length done)%nat -> crash_at done rest dsk0 d' ->
       exists sB dB ls1 ls2, r_main 2 conf2 m D P types values name bodies mo 0 U0 p0 (fun _ => []) conv vs vs (fun _ => vs) d' = Ok (Some (sB, dB, ls2)) /\
         (same_decoupled m (n_forces m bodies) (r_x sA) (r_x sB) /\ r_bodies sA = r_bodies sB) /\ lsA = (ls1 ++ ls2)%list /\ lenZ ls1 = 3%Z).
Proof.
  intros name K w U0 p0 HK m D bodies P Am Um mo types values conv vs confA conf2.
  destruct (ib_restart_case name K w U0 p0 HK) as ((sA & dA & lsA & _ & _ & _ & _ & _ & _ & HA & _) & (sB & dB & lsB & _ & _ & _ & _ & _ & _ & HB & _) & (sC & dC & lsC & _ & _ & _ & _ & _ & _ & HC & _)).
  pose proof (un_setup false false) as Hs. pose proof (un_fits false false) as Hb. pose proof (pair_ok false false [4; 4] [13 / 4; 9 / 2] eq_refl eq_refl) as Hbo.
  destruct (oscillating_cylinder_motion m D 1 1 1 (default_body 2 2) [[4; 4]; [13 / 4; 9 / 2]] (un_dim _ _) Hbo) as (Hmo & _ & _). fold Am Um mo in Hmo.
  assert (Hnc : no_convective m types) by (intros f loc _ _; unfold types, un_types; destruct (loc <? 2)%Z; discriminate).
  assert (Hcv : conv_respects m D conv) by (intros B B' x x' y _ Hx E; injection E as <-; eexists; split; [reflexivity|exact Hx]).
  assert (Hvs : forall n, vsolve_respects n vs) by (intros n g g' b b' _ Hx; exact Hx).
  assert (Hps : forall n, psolve_respects n vs) by (intros n g g' b b' Hx; exact Hx).
  assert (Hd1 : (c_nsave confA | 3)%Z) by (exists 3%Z; reflexivity). assert (Hd3 : (c_nrestart confA | 3)%Z) by (exists 1%Z; reflexivity).
  split; [|split].
  - destruct (coupled_file_operations _ _ _ _ _ _ _ _ _ _ _ _ _ _ _ _ _ _ _ _ HA) as (tr & Ht & _ & Hm). destruct (steps_split tr _ _ 3 Hm ltac:(cbn; lia)) as (tr1 & o & tr2 & Et & L).
    exists sA, dA, lsA, tr, tr1, o, tr2. split; [exact HA|]. split; [exact Ht|]. split; [exact Et|]. split; [exact L|]. intros done rest d' E Hl C.
    exact (coupled_crash_recovery m D P types values name bodies 0 U0 p0 conv vs vs (fun _ => []) (fun _ => []) confA conf2 5 2 dsk0 sA dA lsA tr done rest d' tr1 3 o tr2
      Hs Hb Hbo Hnc Hcv (Hvs _) (Hps _) ltac:(cbn; lia) ltac:(intros ? ? ? []) HA Ht E C Et Hl ltac:(cbn; lia) Hd3 (or_introl Hd1) eq_refl eq_refl eq_refl ltac:(discriminate) ltac:(discriminate) ltac:(cbn; lia)).
  - destruct (decoupled_file_operations _ _ _ _ _ _ _ _ _ _ _ _ _ _ _ _ _ _ _ _ _ HB) as (tr & Ht & _ & Hm). destruct (steps_split tr _ _ 3 Hm ltac:(cbn; lia)) as (tr1 & o & tr2 & Et & L).
    exists sB, dB, lsB, tr, tr1, o, tr2. split; [exact HB|]. split; [exact Ht|]. split; [exact Et|]. split; [exact L|]. intros done rest d' E Hl C.
    exact (decoupled_crash_recovery m D P types values name bodies 0 U0 p0 conv vs vs vs (fun _ => []) (fun _ => []) confA conf2 5 2 dsk0 sB dB lsB tr done rest d' tr1 3 o tr2
      Hs Hb Hbo Hnc Hcv (Hvs _) (Hps _) (Hps _) ltac:(cbn; lia) ltac:(intros ? ? ? []) HB Ht E C Et Hl ltac:(cbn; lia) Hd3 (or_introl Hd1) eq_refl eq_refl eq_refl ltac:(discriminate) ltac:(discriminate) ltac:(cbn; lia)).
  - destruct (moving_file_operations _ _ _ _ _ _ _ _ _ _ _ _ _ _ _ _ _ _ _ _ _ _ HC) as (tr & Ht & _ & Hm). destruct (steps_split tr _ _ 3 Hm ltac:(cbn; lia)) as (tr1 & o & tr2 & Et & L).
    exists sC, dC, lsC, tr, tr1, o, tr2. split; [exact HC|]. split; [exact Ht|]. split; [exact Et|]. split; [exact L|]. intros done rest d' E Hl C.
    exact (moving_crash_recovery m D P types values name bodies mo _ _ 0 U0 p0 conv vs vs (fun _ => vs) (fun _ => []) (fun _ => []) confA conf2 5 2 dsk0 sC dC lsC tr done rest d' tr1 3 o tr2
      Hs Hb Hbo Hmo Hnc Hcv (Hvs _) (Hps _) (fun _ => Hps _) ltac:(cbn; lia) ltac:(intros ? ? ? []) HC Ht E C Et Hl ltac:(cbn; lia) Hd3 (or_introl Hd1) eq_refl eq_refl eq_refl ltac:(cbn; lia) ltac:(discriminate) ltac:(discriminate) ltac:(cbn; lia)).
Qed.
