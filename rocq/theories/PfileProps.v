(** C69: the files of the probes of a run. *)
From Coq Require Import Ascii String ZifyBool Sorted.
From Verif Require Import Prelude ZSum RSum TypesModel GridModel GridSpec GridProof IndexModel IndexSpec IndexProof BoundaryModel BoundarySpec BoundaryProof
  OperatorModel OperatorSpec OperatorProof BStateProof MatModel BnModel ConvModel ConvProof BodyModel BodySpec BodyProof DeltaModel DeltaSpec
  ProbeModel ProbeSpec ProbeProof ProbeInterp ProbeRun ProbeProps
  NSModel NSSpec NSProof NameModel NameProof DriverModel DriverSpec DriverProof DriveProof RestartProof
  IbpmModel IbpmSpec IbpmProof IbpmStep IbpmDec IbpmMove IbOutModel IbOutSpec IbOutDrive IbOutSim IbOutProof IbOutDec
  ConfigModel ConfigSpec ProgModel ProgSpec ProgRun ExampleSetup PfileModel PfileSpec PfileProof.
Local Open Scope R_scope.

(** * The Navier-Stokes program *)

(** C69. Probes do not disturb a run: with probes that can be used, a run has
    them exactly when the run without them ends, in the same state and with the
    same other files. *)
Theorem probes_do_not_disturb : forall fuel conf m D P types values t0 U0 p0 probes conv vs ps d q s2 d2 tr,
  mesh_setup m D -> Forall (probe_usable m) probes ->
  ns_main fuel conf m D P types values t0 U0 p0 (fun _ => []) conv vs ps d = Ok (Some (s2, d2, tr)) <->
  exists q2, ns_main_p fuel conf m D P types values t0 U0 p0 probes conv vs ps d q = Ok (Some (s2, d2, tr, q2)).
Proof.
  intros fuel conf m D P types values t0 U0 p0 probes conv vs ps d q s2 d2 tr Hs Hu. unfold ns_main, ns_main_p. split.
  - intros H. apply bind_ok_inv in H. destruct H as ([ops s0] & -> & H). cbn [bind]. cbv zeta in *. apply bind_ok_inv in H. destruct H as ([s1 w] & E1 & H).
    apply bind_ok_inv in H. destruct H as (r & E2 & H). destruct r as [[[sa da] tra]|]; [|discriminate]. injection H as <- <- <-.
    destruct (inits_last m D probes Hs Hu) as (xs & -> & Hx). cbn [bind]. rewrite E1. cbn [bind]. rewrite drive_plain in E2.
    destruct (p_loop_total s_ite conf m D (advance m D P ops conv vs ps) _ obs_ns fuel _ _ xs _ _ _ Hx E2) as (xs2 & E3). unfold no_ops. rewrite E3. cbn [bind]. eauto.
  - intros (q2 & H). apply bind_ok_inv in H. destruct H as ([ops s0] & -> & H). cbn [bind]. cbv zeta in *. apply bind_ok_inv in H. destruct H as (xs & _ & H).
    apply bind_ok_inv in H. destruct H as ([s1 w] & E1 & H). rewrite E1. cbn [bind].
    apply bind_ok_inv in H. destruct H as (r & E2 & H). destruct r as [[[[sa da] tra] xsa]|]; [|discriminate]. injection H as <- <- <- <-.
    destruct (p_loop_inv s_ite s_t (p_dt P) conf m D (advance m D P ops conv vs ps) _ obs_ns (step_ite m D P ops conv vs ps) fuel _ _ _ _ _ _ _ E2) as (E3 & _).
    rewrite drive_plain. unfold no_ops in E3. rewrite E3. reflexivity.
Qed.
Print Assumptions probes_do_not_disturb.

(** C69. What the files of the probes hold after a run, whatever they held
    before: [calls] are the step number, the time, the velocity and the pressure
    after each step. No other file is touched. *)
Theorem probe_files_written : forall fuel conf m D P types values t0 U0 p0 probes conv vs ps d q s2 d2 tr q2,
  mesh_setup m D -> Forall (probe_usable m) probes -> NoDup (map pd_path probes) ->
  ns_main_p fuel conf m D P types values t0 U0 p0 probes conv vs ps d q = Ok (Some (s2, d2, tr, q2)) ->
  exists ops s0 s1 w hist,
    ns_init m D P types values t0 (c_nstart conf) U0 p0 = Ok (ops, s0) /\
    io_initial conf m D s0 (run_ops (init_ops m conf) d) = Ok (s1, w) /\ s_ite s1 = c_nstart conf /\
    history (advance m D P ops conv vs ps) s_ite s_t (p_dt P) s1 (Z.max 0 (c_nt conf)) hist s2 /\
    let calls := map (fun s => (s_ite s, s_t s, s_U s, s_p s)) hist in
    probes_written m D probes calls q q2.
Proof.
  intros fuel conf m D P types values t0 U0 p0 probes conv vs ps d q s2 d2 tr q2 Hs Hu Hn H. unfold ns_main_p in H.
  apply bind_ok_inv in H. destruct H as ([ops s0] & EI & H). cbv zeta in *. apply bind_ok_inv in H. destruct H as (xs & Ex & H).
  apply bind_ok_inv in H. destruct H as ([s1 w] & E1 & H). apply bind_ok_inv in H. destruct H as (r & E2 & H). destruct r as [[[[sa da] tra] xsa]|]; [|discriminate]. injection H as <- <- <- <-.
  destruct (p_loop_inv s_ite s_t (p_dt P) conf m D (advance m D P ops conv vs ps) _ obs_ns (step_ite m D P ops conv vs ps) fuel _ _ _ _ _ _ _ E2) as (_ & hist & Hh & Hf).
  assert (Hi : s_ite s1 = c_nstart conf).
  { destruct (ns_init_step _ _ _ _ _ _ _ (c_nstart conf) _ _ _ _ EI) as [Hi _]. unfold io_initial in E1. destruct (s_ite s0 =? 0)%Z; [injection E1 as <- <-; exact Hi|].
    apply bind_ok_inv in E1. destruct E1 as (s' & E & E1). injection E1 as <- <-. destruct (read_inv _ _ _ _ _ _ E) as [X _]. lia. }
  exists ops, s0, s1, w, hist. split; [exact EI|]. split; [exact E1|]. split; [exact Hi|]. split.
  - rewrite Hi in Hh. replace (Z.max 0 (c_nt conf)) with (Z.max 0 (c_nstart conf + c_nt conf - c_nstart conf))%Z by lia. exact Hh.
  - exact (all_written m D probes xs xsa (map obs_ns hist) q Hs Hu Hn Ex Hf).
Qed.
Print Assumptions probe_files_written.

(** C69. With a time step above 1/1000000 no dataset of a volume probe is
    written twice: after the run, its HDF5 file has every record that is due. *)
Theorem probe_files_complete : forall fuel conf m D P types values t0 U0 p0 probes conv vs ps d q s2 d2 tr q2,
  mesh_setup m D -> Forall (probe_usable m) probes -> NoDup (map pd_path probes) -> 1 / 1000000 < p_dt P ->
  ns_main_p fuel conf m D P types values t0 U0 p0 probes conv vs ps d q = Ok (Some (s2, d2, tr, q2)) ->
  exists ops s0 s1 w hist,
    ns_init m D P types values t0 (c_nstart conf) U0 p0 = Ok (ops, s0) /\
    io_initial conf m D s0 (run_ops (init_ops m conf) d) = Ok (s1, w) /\
    history (advance m D P ops conv vs ps) s_ite s_t (p_dt P) s1 (Z.max 0 (c_nt conf)) hist s2 /\
    let calls := map (fun s => (s_ite s, s_t s, s_U s, s_p s)) hist in
    forall p, In p probes -> pd_kind p = VOLUME -> pd_hdf5 p = true ->
    exists sets, q2 (pd_path p) = Some (Hdf5 sets) /\
    forall sel v, selects (scheduled (pd_conf p)) calls sel ->
      (forall n t U y, In (n, t, U, y) sel -> field_values m D (pc_field (pd_conf p)) U y (v (n, t, U, y))) ->
      exists records, due_records m D p sel v records /\
        forall r, In r records -> sets (record_name (pc_field (pd_conf p)) (pr_time r)) = Some (HReals (pr_data r) (pr_count r)).
Proof.
  intros fuel conf m D P types values t0 U0 p0 probes conv vs ps d q s2 d2 tr q2 Hs Hu Hn Hdt H.
  destruct (probe_files_written _ _ _ _ _ _ _ _ _ _ _ _ _ _ _ _ _ _ _ _ Hs Hu Hn H) as (ops & s0 & s1 & w & hist & EI & E1 & _ & Hh & Hw & _).
  exists ops, s0, s1, w, hist. split; [exact EI|]. split; [exact E1|]. split; [exact Hh|]. intros calls p Hp Ek Eh. destruct (Hw p Hp) as (F & EF & HF).
  assert (Hc : StronglySorted (apart (p_dt P)) calls) by (apply (history_apart (advance m D P ops conv vs ps) s_ite s_t (p_dt P) s1 (Z.max 0 (c_nt conf)) hist s2); [lra|reflexivity|exact Hh]).
  rewrite Forall_forall in Hu. destruct (Hu p Hp) as (Hm & _).
  destruct (records_kept m D p (p_dt P) calls F _ (values_of m D (pc_field (pd_conf p))) Hs Hdt Hc Ek Eh HF (selects_calls (pd_conf p) calls Hm) (fun n t U y _ => values_of_ok m D _ n t U y Hs))
    as (rec0 & sets & _ & -> & _).
  exists sets. split; [exact EF|]. intros sel v Hsel Hv. destruct (records_kept m D p (p_dt P) calls _ sel v Hs Hdt Hc Ek Eh HF Hsel Hv) as (records & sets' & Hd & E & Hr).
  injection E as <-. eauto.
Qed.
Print Assumptions probe_files_complete.

(** * The programs with bodies *)

(** C69. The same three results for the program with the coupled solver... *)
Theorem coupled_probes_do_not_disturb : forall fuel conf m D P types values name bodies t0 U0 p0 probes conv vs ps d q s2 d2 ls,
  mesh_setup m D -> Forall (probe_usable m) probes ->
  ib_main fuel conf m D P types values name bodies t0 U0 p0 (fun _ => []) conv vs ps d = Ok (Some (s2, d2, ls)) <->
  exists q2, ib_main_p fuel conf m D P types values name bodies t0 U0 p0 probes conv vs ps d q = Ok (Some (s2, d2, ls, q2)).
Proof.
  intros fuel conf m D P types values name bodies t0 U0 p0 probes conv vs ps d q s2 d2 ls Hs Hu.
  refine (b_same (ib_init m D P types values name bodies t0 (c_nstart conf) U0 p0) s_ite s_t (p_dt P) (ib_write_solution m D) (fun O => ib_read_restart m D O (n_forces m bodies))
    (fun O => ib_advance m D P O conv vs ps) (fun O => ib_write conf m D O bodies no_ops) obs_ns conf m D probes _ Hs Hu fuel d q s2 d2 ls).
  intros O s s' E. split; [exact (c_ite m D P conv vs ps O s s' E)|exact (c_time m D P conv vs ps O s s' E)].
Qed.
Print Assumptions coupled_probes_do_not_disturb.

(** ... its files: those of the velocity components on any number of ranks, and
    that of the pressure on one rank. *)
Theorem coupled_probe_files : forall fuel conf m D P types values name bodies t0 U0 p0 probes conv vs ps d q s2 d2 ls q2,
  mesh_setup m D -> bc_fits m types -> bodies_ok m D bodies -> Forall (probe_usable m) probes -> NoDup (map pd_path probes) ->
  ib_main_p fuel conf m D P types values name bodies t0 U0 p0 probes conv vs ps d q = Ok (Some (s2, d2, ls, q2)) ->
  exists O s0 s1 w hist,
    ib_init m D P types values name bodies t0 (c_nstart conf) U0 p0 = Ok (O, s0) /\
    io_initial_with s_ite (ib_write_solution m D O) (ib_read_restart m D O (n_forces m bodies)) conf s0 (run_ops (f_init_ops m conf) d) = Ok (s1, w) /\
    s_ite s1 = c_nstart conf /\
    history (ib_advance m D P O conv vs ps) s_ite s_t (p_dt P) s1 (Z.max 0 (c_nt conf)) hist s2 /\
    let calls := map (fun s => (s_ite s, s_t s, s_U s, nest_sub (ib_lay O) 0 (s_p s))) hist in
    (forall p, In p probes -> exists F, q2 (pd_path p) = Some F /\ (pc_field (pd_conf p) <> 3%Z \/ nranks D = 1%Z -> probe_file m D p calls F)) /\
    (forall path, ~ In path (map pd_path probes) -> q2 path = q path).
Proof.
  intros fuel conf m D P types values name bodies t0 U0 p0 probes conv vs ps d q s2 d2 ls q2 Hs Hb Hbo Hu Hn H.
  destruct (b_written (ib_init m D P types values name bodies t0 (c_nstart conf) U0 p0) s_ite s_t (p_dt P) (ib_write_solution m D) (fun O => ib_read_restart m D O (n_forces m bodies))
    (fun O => ib_advance m D P O conv vs ps) (fun O => ib_write conf m D O bodies no_ops) obs_ns conf m D probes
    (fun O s s' E => conj (c_ite m D P conv vs ps O s s' E) (c_time m D P conv vs ps O s s' E))
    (fun O s E => proj1 (c_init_any m D P types values name bodies t0 U0 p0 _ O s E))
    (fun O p d s s' E => c_rite m D bodies O p d s s' E) Hs Hu fuel d q s2 d2 ls q2 Hn H) as (O & s0 & s1 & w & hist & EI & E1 & Hi & Hh & Hw & Ho).
  exists O, s0, s1, w, hist. split; [exact EI|]. split; [exact E1|]. split; [exact Hi|]. split; [exact Hh|]. intros calls. split; [|exact Ho].
  intros p Hp. destruct (Hw p Hp) as (F & EF & HF). exists F. split; [exact EF|]. intros Hc. revert HF. apply probe_file_ext; [apply (history_steps (ib_advance m D P O conv vs ps) s_ite s_t (p_dt P) s1 (Z.max 0 (c_nt conf)) hist s2); [reflexivity|exact Hh]|].
  unfold calls. destruct (c_lay m D P types values name bodies t0 U0 p0 Hs Hb _ O s0 EI) as [EL _].
  assert (X : forall s, same_field m D (pc_field (pd_conf p)) (obs_ns s) (s_ite s, s_t s, s_U s, nest_sub (ib_lay O) 0 (s_p s))).
  { intros s. unfold obs_ns. split; [reflexivity|]. split; [reflexivity|]. intros v. unfold field_values. destruct (Z.eqb_spec (pc_field (pd_conf p)) 3) as [E3|E3]; [|auto].
    destruct Hc as [Hc|Hc]; [contradiction|]. intros G id y Hy. rewrite (G id y Hy). rewrite EL. exact (couple_single m D bodies (s_p s) id y Hs Hbo Hc Hy). }
  clear -X. induction hist; constructor; auto.
Qed.
Print Assumptions coupled_probe_files.

(** ... and for the programs with the decoupled solver, with fixed bodies... *)
Theorem decoupled_probe_files : forall fuel conf m D P types values name bodies t0 U0 p0 probes conv vs ps fs d q,
  mesh_setup m D -> Forall (probe_usable m) probes -> NoDup (map pd_path probes) ->
  (forall x2 d2 ls, d_main fuel conf m D P types values name bodies t0 U0 p0 (fun _ => []) conv vs ps fs d = Ok (Some (x2, d2, ls)) <->
     exists q2, d_main_p fuel conf m D P types values name bodies t0 U0 p0 probes conv vs ps fs d q = Ok (Some (x2, d2, ls, q2))) /\
  (forall x2 d2 ls q2, d_main_p fuel conf m D P types values name bodies t0 U0 p0 probes conv vs ps fs d q = Ok (Some (x2, d2, ls, q2)) ->
   exists O X x0 x1 w hist,
     d_init m D P types values name bodies t0 (c_nstart conf) U0 p0 = Ok (O, X, x0) /\
     io_initial_with x_ite (d_write_solution m D) (d_read_restart m D (n_forces m bodies)) conf x0 (run_ops (f_init_ops m conf) d) = Ok (x1, w) /\
     x_ite x1 = c_nstart conf /\
     history (d_advance m D P O X (n_forces m bodies) conv (d_assembleRHSForces m X) vs ps fs) x_ite (fun x => s_t (x_ns x)) (p_dt P) x1 (Z.max 0 (c_nt conf)) hist x2 /\
     let calls := map (fun x => (x_ite x, s_t (x_ns x), s_U (x_ns x), s_p (x_ns x))) hist in
     probes_written m D probes calls q q2).
Proof.
  intros fuel conf m D P types values name bodies t0 U0 p0 probes conv vs ps fs d q Hs Hu Hn.
  assert (Hst : forall (OX : nsops * dops) x x', d_advance m D P (fst OX) (snd OX) (n_forces m bodies) conv (d_assembleRHSForces m (snd OX)) vs ps fs x = Ok x' ->
    x_ite x' = (x_ite x + 1)%Z /\ s_t (x_ns x') = s_t (x_ns x) + p_dt P).
  { intros OX x x' E. split; [exact (e_ite m D P conv vs ps _ _ _ _ _ x x' E)|exact (e_time m D P conv vs ps _ _ _ _ _ x x' E)]. }
  split.
  - intros x2 d2 ls.
    exact (b_same (d_init m D P types values name bodies t0 (c_nstart conf) U0 p0) x_ite (fun x => s_t (x_ns x)) (p_dt P) (fun _ => d_write_solution m D) (fun _ => d_read_restart m D (n_forces m bodies))
      (fun OX => d_advance m D P (fst OX) (snd OX) (n_forces m bodies) conv (d_assembleRHSForces m (snd OX)) vs ps fs) (fun _ => d_write conf m D bodies no_ops)
      (fun x => obs_ns (x_ns x)) conf m D probes Hst Hs Hu fuel d q x2 d2 ls).
  - intros x2 d2 ls q2 H.
    destruct (b_written (d_init m D P types values name bodies t0 (c_nstart conf) U0 p0) x_ite (fun x => s_t (x_ns x)) (p_dt P) (fun _ => d_write_solution m D) (fun _ => d_read_restart m D (n_forces m bodies))
      (fun OX => d_advance m D P (fst OX) (snd OX) (n_forces m bodies) conv (d_assembleRHSForces m (snd OX)) vs ps fs) (fun _ => d_write conf m D bodies no_ops)
      (fun x => obs_ns (x_ns x)) conf m D probes Hst
      (fun OX x E => proj1 (e_init_any m D P types values name bodies t0 U0 p0 _ OX x E))
      (fun OX p d x x' E => e_rite m D _ p d x x' E) Hs Hu fuel d q x2 d2 ls q2 Hn H) as ([O X] & x0 & x1 & w & hist & EI & E1 & Hi & Hh & Hw).
    exists O, X, x0, x1, w, hist. auto.
Qed.
Print Assumptions decoupled_probe_files.

(** ... and with moving bodies. *)
Theorem moving_probe_files : forall fuel conf m D P types values name bodies mo t0 U0 p0 probes conv vs ps fs d q,
  mesh_setup m D -> Forall (probe_usable m) probes -> NoDup (map pd_path probes) ->
  (forall s2 d2 ls, r_main fuel conf m D P types values name bodies mo t0 U0 p0 (fun _ => []) conv vs ps fs d = Ok (Some (s2, d2, ls)) <->
     exists q2, r_main_p fuel conf m D P types values name bodies mo t0 U0 p0 probes conv vs ps fs d q = Ok (Some (s2, d2, ls, q2))) /\
  (forall s2 d2 ls q2, r_main_p fuel conf m D P types values name bodies mo t0 U0 p0 probes conv vs ps fs d q = Ok (Some (s2, d2, ls, q2)) ->
   exists O s0 s1 w hist,
     r_init m D P types values name bodies t0 (c_nstart conf) U0 p0 = Ok (O, s0) /\
     io_initial_with r_ite (fun path s => d_write_solution m D path (r_x s)) (r_read_restart m D) conf s0 (run_ops (f_init_ops m conf) d) = Ok (s1, w) /\
     r_ite s1 = c_nstart conf /\
     history (r_advance m D P O name mo conv vs ps fs) r_ite (fun s => s_t (x_ns (r_x s))) (p_dt P) s1 (Z.max 0 (c_nt conf)) hist s2 /\
     let calls := map (fun s => (r_ite s, s_t (x_ns (r_x s)), s_U (x_ns (r_x s)), s_p (x_ns (r_x s)))) hist in
     probes_written m D probes calls q q2).
Proof.
  intros fuel conf m D P types values name bodies mo t0 U0 p0 probes conv vs ps fs d q Hs Hu Hn. split.
  - intros s2 d2 ls.
    exact (b_same (r_init m D P types values name bodies t0 (c_nstart conf) U0 p0) r_ite (fun s => s_t (x_ns (r_x s))) (p_dt P) (fun _ path s => d_write_solution m D path (r_x s)) (fun _ => r_read_restart m D)
      (fun O => r_advance m D P O name mo conv vs ps fs) (fun _ => r_write_all conf m D no_ops) (fun s => obs_ns (x_ns (r_x s))) conf m D probes
      (fun O s s' E => v_ite m D P name conv vs ps mo fs O s s' E) Hs Hu fuel d q s2 d2 ls).
  - intros s2 d2 ls q2 H.
    destruct (b_written (r_init m D P types values name bodies t0 (c_nstart conf) U0 p0) r_ite (fun s => s_t (x_ns (r_x s))) (p_dt P) (fun _ path s => d_write_solution m D path (r_x s)) (fun _ => r_read_restart m D)
      (fun O => r_advance m D P O name mo conv vs ps fs) (fun _ => r_write_all conf m D no_ops) (fun s => obs_ns (x_ns (r_x s))) conf m D probes
      (fun O s s' E => v_ite m D P name conv vs ps mo fs O s s' E)
      (fun O s E => proj1 (proj2 (v_init_any m D P types values name bodies t0 U0 p0 _ O s E)))
      (fun O p d s s' E => e_rite m D _ p d _ _ (proj1 (v_read_inv m D p d s s' E))) Hs Hu fuel d q s2 d2 ls q2 Hn H) as (O & s0 & s1 & w & hist & EI & E1 & Hi & Hh & Hw).
    exists O, s0, s1, w, hist. auto.
Qed.
Print Assumptions moving_probe_files.

(** C69 fails for probes of the pressure in the coupled program on more than
    one rank. They are given the vector of the pressure and the forces, which
    has the forces of rank 0 before the pressure of rank 1, and the numbers of
    the pressure points alone: at the first pressure point of rank 1 they record
    the first force. *)
Theorem coupled_pressure_probe_refuted : forall fuel conf m D P types values name bodies t0 U0 p0 probes conv vs ps d q s2 d2 ls q2 p y,
  mesh_setup m D -> bc_fits m types -> bodies_ok m D bodies -> Forall (probe_usable m) probes -> NoDup (map pd_path probes) ->
  (0 < bp_nLclAllProcs (m_dim m) (map fst bodies) 0)%Z -> nthZ (field_layout D 3) (pressure_l D 0) = Some y ->
  In p probes -> pd_kind p = VOLUME -> pd_hdf5 p = false -> pd_nsum p = 0%Z -> pc_field (pd_conf p) = 3%Z ->
  ib_main_p fuel conf m D P types values name bodies t0 U0 p0 probes conv vs ps d q = Ok (Some (s2, d2, ls, q2)) ->
  exists O s0 s1 w hist items,
    ib_init m D P types values name bodies t0 (c_nstart conf) U0 p0 = Ok (O, s0) /\
    io_initial_with s_ite (ib_write_solution m D O) (ib_read_restart m D O (n_forces m bodies)) conf s0 (run_ops (f_init_ops m conf) d) = Ok (s1, w) /\
    history (ib_advance m D P O conv vs ps) s_ite s_t (p_dt P) s1 (Z.max 0 (c_nt conf)) hist s2 /\
    q2 (pd_path p) = Some (Ascii items) /\
    forall s, In s hist -> scheduled (pd_conf p) (s_ite s, s_t s, s_U s, s_p s) ->
      exists data, In (Block (mkRec (s_t s) None data)) items /\
        forall i, nthZ (probe_points m D p) i = Some y -> nthZ data i = Some (nest_sub (ib_lay O) 1 (s_p s) 0%Z).
Proof.
  intros fuel conf m D P types values name bodies t0 U0 p0 probes conv vs ps d q s2 d2 ls q2 p y Hs Hb Hbo Hu Hn H0 Hy Hp Ek Eh En E3 H.
  destruct (b_written (ib_init m D P types values name bodies t0 (c_nstart conf) U0 p0) s_ite s_t (p_dt P) (ib_write_solution m D) (fun O => ib_read_restart m D O (n_forces m bodies))
    (fun O => ib_advance m D P O conv vs ps) (fun O => ib_write conf m D O bodies no_ops) obs_ns conf m D probes
    (fun O s s' E => conj (c_ite m D P conv vs ps O s s' E) (c_time m D P conv vs ps O s s' E))
    (fun O s E => proj1 (c_init_any m D P types values name bodies t0 U0 p0 _ O s E))
    (fun O p d s s' E => c_rite m D bodies O p d s s' E) Hs Hu fuel d q s2 d2 ls q2 Hn H) as (O & s0 & s1 & w & hist & EI & E1 & Hi & Hh & Hw & Ho).
  destruct (Hw p Hp) as (F & EF & HF). rewrite Forall_forall in Hu. destruct (Hu p Hp) as (Hm & _).
  pose proof (selects_calls (pd_conf p) (map obs_ns hist) Hm) as Hsel.
  specialize (HF _ (values_of m D (pc_field (pd_conf p))) Hsel (fun n t U y _ => values_of_ok m D _ n t U y Hs)). rewrite Ek, Eh in HF. destruct HF as (records & [Hd _] & EFa). specialize (Hd En).
  exists O, s0, s1, w, hist. eexists. split; [exact EI|]. split; [exact E1|]. split; [exact Hh|]. split; [rewrite EF, EFa; reflexivity|].
  intros s Hin Hsc. exists (map (values_of m D (pc_field (pd_conf p)) (obs_ns s)) (probe_points m D p)). split.
  - unfold ascii_contents. apply in_app_iff. right. apply in_app_iff. right. apply in_map. rewrite Hd, map_map. cbn [fst snd].
    apply (in_map (fun cl => mkRec (call_time cl) None (map (values_of m D (pc_field (pd_conf p)) cl) (probe_points m D p))) _ (obs_ns s)).
    apply (selects_kept _ _ _ Hsel); [now apply in_map|exact Hsc].
  - intros i Hi'. rewrite nthZ_map, Hi'. cbn [option_map]. f_equal. destruct (c_lay m D P types values name bodies t0 U0 p0 Hs Hb _ O s0 EI) as [-> _].
    rewrite (couple_overlap m D bodies (s_p s) Hs Hbo H0). pose proof (values_of_ok m D (pc_field (pd_conf p)) (s_ite s) (s_t s) (s_U s) (s_p s) Hs) as V. unfold field_values in V. rewrite E3 in *.
    cbn in V. exact (V _ _ Hy).
Qed.
Print Assumptions coupled_pressure_probe_refuted.

(** * Limits *)

(** The datasets are named after the time with six decimals: of two records
    whose times agree to six decimals the first is lost (the file has the mesh
    and the second record, and no other dataset). *)
Theorem probe_dataset_lost_refuted : forall m D p n1 t1 U1 y1 n2 t2 U2 y2 v1 v2,
  mesh_setup m D -> probe_usable m p -> pd_kind p = VOLUME -> pd_hdf5 p = true -> pd_nsum p = 0%Z ->
  let f := pc_field (pd_conf p) in
  scheduled (pd_conf p) (n1, t1, U1, y1) -> scheduled (pd_conf p) (n2, t2, U2, y2) -> n1 <> n2 -> real_name t1 = real_name t2 ->
  field_values m D f U1 y1 v1 -> field_values m D f U2 y2 v2 ->
  exists x0 x1 x2 sets, probe_init m D p = Ok x0 /\ probe_monitor m D (n1, t1, U1, y1) x0 = Ok x1 /\ probe_monitor m D (n2, t2, U2, y2) x1 = Ok x2 /\
    pt_file x2 = Hdf5 sets /\ sets (record_name f t1) = Some (HReals (map v2 (probe_points m D p)) None) /\
    forall name x, sets name = Some x -> name = record_name f t1 \/ name = "/mesh/IS"%string \/ exists d, (0 <= d < m_dim m)%Z /\ name = mesh_set d.
Proof.
  intros m D p n1 t1 U1 y1 n2 t2 U2 y2 v1 v2 Hs Hu Ek Eh En f S1 S2 Hne Et F1 F2. destruct (probe_run m D p Hs Hu) as (x0 & E0 & _ & Hc).
  destruct (Hc [(n1, t1, U1, y1); (n2, t2, U2, y2)]) as (x2 & Ex & _ & HF). rewrite pfold_cons in Ex. apply bind_ok_inv in Ex. destruct Ex as (x1 & E1 & Ex).
  rewrite pfold_cons in Ex. apply bind_ok_inv in Ex. destruct Ex as (x2' & E2 & Ex). injection Ex as ->.
  specialize (HF [(n1, t1, U1, y1); (n2, t2, U2, y2)] (fun cl => if (call_step cl =? n1)%Z then v1 else v2)). rewrite Ek, Eh in HF.
  destruct HF as (records & [Hd _] & sets & EF & (_ & _ & Hk & Hall)).
  - apply sel_take; [exact S1|]. apply sel_take; [exact S2|]. constructor.
  - intros n t U y [E|[E|[]]]; injection E as <- <- <- <-; cbn [call_step]; [now rewrite Z.eqb_refl|]. destruct (Z.eqb_spec n2 n1); [congruence|assumption].
  - specialize (Hd En). cbn [map fst snd call_time call_step] in Hd. rewrite Z.eqb_refl in Hd. destruct (Z.eqb_spec n2 n1); [congruence|].
    assert (Er : record_name f t2 = record_name f t1) by (unfold record_name; now rewrite Et).
    exists x0, x1, x2, sets. split; [exact E0|]. split; [exact E1|]. split; [exact E2|]. split; [exact EF|]. split.
    + rewrite <- Er. apply (Hk 1%Z (mkRec t2 None (map v2 (probe_points m D p)))); [now rewrite Hd|]. intros i r' Hi Hr. exfalso. apply nthZ_Some_range in Hr. rewrite Hd in Hr. cbn in Hr. lia.
    + intros name x Hx. destruct (Hall name x Hx) as [H|[H|(r & Hr & H)]]; [auto|auto|]. left. rewrite Hd in Hr. destruct Hr as [<-|[<-|[]]]; cbn [pr_time] in H; fold f in H; congruence.
Qed.
Print Assumptions probe_dataset_lost_refuted.

(** The files of the probes are opened anew by each run, under the same name: a
    run that resumes another one leaves in them no value from before its own
    start, whatever they held. (The files of forces carry the first step in
    their name.) *)
Theorem resumed_probe_file_refuted : forall fuel conf m D P types values t0 U0 p0 probes conv vs ps d q s2 d2 tr q2 p,
  mesh_setup m D -> Forall (probe_usable m) probes -> NoDup (map pd_path probes) -> 0 < p_dt P ->
  ns_main_p fuel conf m D P types values t0 U0 p0 probes conv vs ps d q = Ok (Some (s2, d2, tr, q2)) ->
  In p probes -> pd_kind p = POINT -> in_span m p ->
  exists ops s0 s1 w lines, ns_init m D P types values t0 (c_nstart conf) U0 p0 = Ok (ops, s0) /\
    io_initial conf m D s0 (run_ops (init_ops m conf) d) = Ok (s1, w) /\
    q2 (pd_path p) = Some (Ascii (map (fun tv => Line (fst tv) (snd tv)) lines)) /\ forall tv, In tv lines -> s_t s1 < fst tv.
Proof.
  intros fuel conf m D P types values t0 U0 p0 probes conv vs ps d q s2 d2 tr q2 p Hs Hu Hn Hdt H Hp Ek Hin.
  destruct (probe_files_written _ _ _ _ _ _ _ _ _ _ _ _ _ _ _ _ _ _ _ _ Hs Hu Hn H) as (ops & s0 & s1 & w & hist & EI & E1 & _ & Hh & Hw & _).
  destruct (Hw p Hp) as (F & EF & HF). rewrite Forall_forall in Hu. destruct (Hu p Hp) as (Hm & _).
  pose proof (selects_calls (pd_conf p) (map (fun s => (s_ite s, s_t s, s_U s, s_p s)) hist) Hm) as Hsel.
  specialize (HF _ (values_of m D (pc_field (pd_conf p))) Hsel (fun n t U y _ => values_of_ok m D _ n t U y Hs)). rewrite Ek in HF. destruct HF as (lines & EFa & Hl & _). specialize (Hl Hin).
  exists ops, s0, s1, w, lines. split; [exact EI|]. split; [exact E1|]. split; [congruence|]. intros tv Htv.
  assert (X : exists cl, In cl (map (fun s => (s_ite s, s_t s, s_U s, s_p s)) hist) /\ fst tv = call_time cl).
  { assert (A : forall cl, In cl (filter (schedb (pd_conf p)) (map (fun s => (s_ite s, s_t s, s_U s, s_p s)) hist)) -> In cl (map (fun s => (s_ite s, s_t s, s_U s, s_p s)) hist)) by (intros cl Hc; now apply filter_In in Hc).
    clear -Hl Htv A. revert A. induction Hl as [|cl tv' la lb [E _] Hl IH]; intros A; [destruct Htv|]. destruct Htv as [->|Htv].
    - exists cl. split; [apply A; now left|exact E].
    - apply IH; [exact Htv|]. intros c Hc. apply A. now right. }
  destruct X as (cl & Hcl & ->). apply in_map_iff in Hcl. destruct Hcl as (s & <- & Hs'). cbn [call_time]. apply In_nthZ in Hs'. destruct Hs' as (j & Hj & Ej).
  destruct Hh as (_ & _ & _ & Ht). destruct (Ht _ _ Ej) as [_ ->]. assert (0 < IZR (j + 1)) by (apply (IZR_lt 0); lia). nra.
Qed.
Print Assumptions resumed_probe_file_refuted.

(** * The program from its configuration *)

(** C69. The Navier-Stokes program on a documented configuration: the mesh and
    the probes are those of the configuration, the probes do not disturb the run,
    and their files are those of C69. *)
Theorem program_probe_files : forall rd lambdify amgx load np y axs bcs nu vel pe c wc wi wd,
  documented rd lambdify amgx load np y axs bcs nu vel pe c wc wi wd ->
  exists m D types values U0 p0 probes,
    mesh_setup m D /\ m_dim m = lenZ axs /\ (forall ax d, In ax axs -> In (ax_dir ax, d) doc_directions -> built_axis m ax d) /\
    describes_probes rd (lenZ axs) (rc_out c) y probes /\
    let P := mkPar (rc_dt c) nu (rc_bn c) wc wi wd (match rc_poisson c with AmgX _ _ => true | KSP _ _ => false end) in
    let conf := mkConf (rc_out c) (rc_logs c) (rc_start c) (rc_nt c) (rc_nsave c) (rc_nrestart c) in
    (Forall (probe_usable m) probes ->
     forall solver_result fuel d q s2 d2 tr,
       ns_program rd lambdify amgx load np solver_result (fun _ _ => []) fuel (Some y) d = Ok (Some (s2, d2, tr)) <->
       exists q2, ns_program_p rd lambdify amgx load np solver_result fuel (Some y) d q = Ok (Some (s2, d2, tr, q2))) /\
    (Forall (probe_usable m) probes -> NoDup (map pd_path probes) ->
     forall solver_result fuel d q s2 d2 tr q2,
       ns_program_p rd lambdify amgx load np solver_result fuel (Some y) d q = Ok (Some (s2, d2, tr, q2)) ->
       exists ops s0 s1 w hist,
         ns_init m D P types values (rc_t c) (rc_start c) U0 p0 = Ok (ops, s0) /\
         io_initial conf m D s0 (run_ops (init_ops m conf) d) = Ok (s1, w) /\ s_ite s1 = rc_start c /\
         history (advance m D P ops (convection m D) (solver_result (rc_velocity c)) (solver_result (rc_poisson c))) s_ite s_t (rc_dt c) s1 (Z.max 0 (rc_nt c)) hist s2 /\
         let calls := map (fun s => (s_ite s, s_t s, s_U s, s_p s)) hist in
         probes_written m D probes calls q q2).
Proof.
  intros rd lambdify amgx load np y axs bcs nu vel pe c wc wi wd Hdoc.
  destruct (program_lemma rd lambdify amgx load np y axs bcs nu vel pe c wc wi wd Hdoc)
    as (m & D & types & values & U0 & p0 & probes & (_ & _ & _ & ES) & Hs & _ & Hdim & _ & Hax & _ & _ & _ & Hpr & _).
  exists m, D, types, values, U0, p0, probes. split; [exact Hs|]. split; [exact Hdim|]. split; [exact Hax|]. split; [exact Hpr|]. intros P conf. split.
  - intros Hu solver_result fuel d q s2 d2 tr. unfold ns_program, ns_program_p. rewrite ES. cbn [bind nb_conf nb_mesh nb_dec nb_par nb_types nb_values nb_t nb_U nb_p nb_probes nb_vsolver nb_psolver].
    apply probes_do_not_disturb; assumption.
  - intros Hu Hn solver_result fuel d q s2 d2 tr q2 H. unfold ns_program_p in H. rewrite ES in H. cbn [bind nb_conf nb_mesh nb_dec nb_par nb_types nb_values nb_t nb_U nb_p nb_probes nb_vsolver nb_psolver] in H.
    exact (probe_files_written _ _ _ _ _ _ _ _ _ _ _ _ _ _ _ _ _ _ _ _ Hs Hu Hn H).
Qed.
Print Assumptions program_probe_files.

(** * Concrete cases *)
From Verif Require Import MeshProof DeltaProof DeltaSum DeltaKernel DeltaProps IbpmOsc IbpmProps MoveProps NSProps IbOutTotal DriverProps SimProps IbOutProps ConfigProof ConfigProps ProgProps.

(** On the walled box of 8 x 8 cells on two ranks: a box of the first velocity
    component in an HDF5 file, a box of the pressure averaged over two samples in
    an ASCII file, and a point of the first velocity component. *)
Definition pf_h5 : pdesc := mkPD VOLUME "a" "a.h5" (mkPC 0 2 0 10) true (1 / 100) 0 ex_lo ex_hi [].
Definition pf_mean : pdesc := mkPD VOLUME "b" "b.dat" (mkPC 3 1 0 10) false (1 / 100) 2 ex_lo ex_hi [].
Definition pf_point : pdesc := mkPD POINT "c" "c.dat" (mkPC 0 1 0 10) false 0 0 (fun _ => 0) (fun _ => 0) [13 / 4; 7 / 2].
Definition pf_press : pdesc := mkPD VOLUME "d" "d.dat" (mkPC 3 1 0 10) false (1 / 100) 0 (fun _ => 0) (fun _ => 8) [].
Lemma pf_box m f a lo hi : 0 < a -> (forall d, lo d <= hi d) -> box_usable m f a lo hi.
Proof. intros Ha H d i _ _ [X Y]. specialize (H d). lra. Qed.
Lemma pf_usable : Forall (probe_usable (un_mesh false false)) [pf_h5; pf_mean; pf_point; pf_press].
Proof.
  assert (H : forall d, ex_lo d <= ex_hi d) by (intros d; unfold ex_lo, ex_hi; destruct (d =? 0)%Z; lra).
  repeat (apply Forall_cons; [split; [discriminate|]; cbn [pd_conf pc_nmonitor pc_field pf_h5 pf_mean pf_point pf_press]; rewrite un_dim|]); [| | | |constructor].
  - left. split; [reflexivity|]. split; [lia|]. apply pf_box; [cbn; lra|exact H].
  - left. split; [reflexivity|]. split; [lia|]. apply pf_box; [cbn; lra|exact H].
  - right. split; [reflexivity|lia].
  - left. split; [reflexivity|]. split; [lia|]. apply pf_box; [cbn; lra|intros d; cbn; lra].
Qed.
Lemma pf_paths : NoDup (map pd_path [pf_h5; pf_mean; pf_point; pf_press]).
Proof. cbn. repeat constructor; cbn; intuition discriminate. Qed.

(** Four steps of the Navier-Stokes program with these probes; the files of the
    run it resumes had other contents. *)
Example probe_files_case : forall U0 p0 q, let m := un_mesh false false in let D := un_dec false false in
  let vs := fun (_ b : vec) => b in let conf := mkConf "o" "l" 0 4 1 2 in
  mesh_setup m D /\ Forall (probe_usable m) [pf_h5; pf_mean; pf_point; pf_press] /\ NoDup (map pd_path [pf_h5; pf_mean; pf_point; pf_press]) /\ 1 / 1000000 < p_dt euler_par /\ in_span m pf_point /\
  exists s2 d2 tr q2, ns_main_p 4 conf m D euler_par (un_types false false) (fun _ _ => 0) 0 U0 p0 [pf_h5; pf_mean; pf_point; pf_press] (convection m D) vs vs dsk0 q = Ok (Some (s2, d2, tr, q2)).
Proof.
  intros U0 p0 q m D vs conf. split; [apply un_setup|]. split; [exact pf_usable|]. split; [exact pf_paths|]. split; [cbn; lra|]. split.
  - intros d Hd. unfold m in *. rewrite un_dim in Hd. assert (d = 0 \/ d = 1)%Z as [->| ->] by lia; change (pc_field (pd_conf pf_point)) with 0%Z.
    + change (m_n (un_mesh false false) 0 0) with 7%Z. rewrite !un_u_crd by lia. change (loc_of pf_point 0) with (13 / 4). lra.
    + change (m_n (un_mesh false false) 0 1) with 8%Z. rewrite !un_v_crd by lia. change (loc_of pf_point 1) with (7 / 2). lra.
  - destruct (simulation_completes m D euler_par (un_types false false) (fun _ _ => 0) 0 U0 p0 vs vs conf (fun _ => []) 4 dsk0 (un_setup false false) (un_fits false false) ltac:(cbn; lia)
      ltac:(reflexivity) ltac:(discriminate) ltac:(discriminate) ltac:(cbn; lia)) as (ops & s1 & s2 & d2 & tr & _ & H).
    apply (probes_do_not_disturb 4 conf m D euler_par (un_types false false) (fun _ _ => 0) 0 U0 p0 [pf_h5; pf_mean; pf_point; pf_press] (convection m D) vs vs dsk0 q s2 d2 tr (un_setup false false) pf_usable) in H.
    destruct H as (q2 & H). eauto.
Qed.

(** Two points in the box with the coupled solver on two ranks, three steps. *)
Example coupled_pressure_probe_case : forall name K w U0 p0 q, getKernel name = Ok (K, w) ->
  let m := un_mesh false false in let D := un_dec false false in let bodies := pair [4; 4] [13 / 4; 9 / 2] in
  let vs := fun (_ b : vec) => b in let conf := mkConf "o" "l" 0 3 1 3 in
  mesh_setup m D /\ bc_fits m (un_types false false) /\ bodies_ok m D bodies /\ (0 < bp_nLclAllProcs (m_dim m) (map fst bodies) 0)%Z /\
  nthZ (field_layout D 3) (pressure_l D 0) = Some (4, 0, 0)%Z /\ In (4, 0, 0)%Z (probe_points m D pf_press) /\
  exists s2 d2 ls q2, ib_main_p 3 conf m D euler_par (un_types false false) (fun _ _ => 0) name bodies 0 U0 p0 [pf_h5; pf_mean; pf_point; pf_press] (fun (_ : boundary) (x : vec) => Ok x) vs vs dsk0 q =
    Ok (Some (s2, d2, ls, q2)).
Proof.
  intros name K w U0 p0 q HK m D bodies vs conf. pose proof (un_setup false false) as Hs. pose proof (un_fits false false) as Hb. pose proof (un_uniform false false) as Hu.
  pose proof (pair_ok false false [4; 4] [13 / 4; 9 / 2] eq_refl eq_refl) as Hbo.
  assert (W : (w <= 3)%Z) by (destruct (getKernel_cases _ _ _ HK) as [(_ & _ & -> & _)|(_ & _ & -> & _)]; lia).
  split; [exact Hs|]. split; [exact Hb|]. split; [exact Hbo|]. split; [unfold m; rewrite un_dim; reflexivity|]. split; [reflexivity|]. split.
  - unfold probe_points. apply in_flat_map. exists 1%Z. split; [apply zrange_In; change (nranks D) with 2%Z; lia|]. unfold box_points. apply filter_In. split.
    + cbn [pf_press pd_conf pc_field]. change (In (4, 0, 0)%Z (local_points D 3 1)). vm_compute. left. reflexivity.
    + unfold in_box. cbn [pf_press pd_conf pc_field pd_atol pd_lo pd_hi]. apply forallb_forall. intros d Hd. apply zrange_In in Hd. unfold m in *. rewrite un_dim in Hd.
      assert (Ec : forall k, (0 <= k < 8)%Z -> crd (un_mesh false false) 3 d k = ctr (ex_mn d) (un_w d) k).
      { intros k Hk. destruct (mesh_pressure _ _ _ _ _ _ (un_create false false) d Hd) as (_ & G & _). destruct (G k Hk) as [E _]. unfold crd. now rewrite E. }
      unfold in_range. apply andb_true_iff. rewrite !Rleb_spec. assert (d = 0 \/ d = 1)%Z as [->| ->] by lia.
      * change (pc (4, 0, 0)%Z 0) with 4%Z. rewrite Ec by lia. unfold ctr, vtx, un_w, ex_mn. change (Z.to_nat (4 + 1)) with 5%nat. change (Z.to_nat 4) with 4%nat. unfold total, sumR. cbn -[IZR Rle Rlt]. lra.
      * change (pc (4, 0, 0)%Z 1) with 0%Z. rewrite Ec by lia. unfold ctr, vtx, un_w, ex_mn. change (Z.to_nat (0 + 1)) with 1%nat. change (Z.to_nat 0) with 0%nat. unfold total, sumR. cbn -[IZR Rle Rlt]. lra.
  - assert (H1 : forall b i X, located bodies b i X -> inside_domain m X /\ in_reach m (un_types false false) w X).
    { intros b i X Hl. apply pair_located in Hl. destruct Hl as (_ & [(_ & ->)|(_ & ->)]); apply un_reach; auto; lra. }
    assert (Hc : forall hist B x, boundary_after m D (un_types false false) (fun _ _ => 0) ([OpICs U0] ++ hist) B -> is_ok ((fun (_ : boundary) (x : vec) => Ok x) B x)) by (intros; eexists; reflexivity).
    pose proof (pair_ranks false false [4; 4] [13 / 4; 9 / 2]) as Hrk.
    destruct (c_total m D euler_par (un_types false false) (fun _ _ => 0) name bodies 0 U0 p0 (fun (_ : boundary) (x : vec) => Ok x) vs vs K w Hs Hb Hbo HK ltac:(cbn; lia) H1 Hrk Hc conf 3%nat dsk0
      ltac:(reflexivity) ltac:(discriminate) ltac:(discriminate) ltac:(cbn; lia) (fun _ => [])) as (s2 & d2 & ls & H).
    apply (coupled_probes_do_not_disturb 3 conf m D euler_par (un_types false false) (fun _ _ => 0) name bodies 0 U0 p0 [pf_h5; pf_mean; pf_point; pf_press] _ vs vs dsk0 q s2 d2 ls Hs pf_usable) in H.
    destruct H as (q2 & H). eauto.
Qed.

(** Times 1/10000000 and 2/10000000. *)
Lemma micro_small x : 0 <= x -> x * 1000000 < 1 / 2 -> micro (Rabs x) = 0%Z.
Proof.
  intros H0 H. rewrite Rabs_right by lra. unfold micro. cbv zeta. assert (E : Int_part (x * 1000000) = 0%Z).
  { unfold Int_part. enough (up (x * 1000000) = 1%Z) by lia. symmetry. apply tech_up; cbn; lra. }
  destruct (Rlt_dec _ _) as [|N]; [exact E|]. exfalso. apply N. unfold frac_part. rewrite E. cbn. lra.
Qed.
Example probe_dataset_lost_case : let m := un_mesh false false in let D := un_dec false false in
  mesh_setup m D /\ probe_usable m pf_h5 /\ pd_kind pf_h5 = VOLUME /\ pd_hdf5 pf_h5 = true /\ pd_nsum pf_h5 = 0%Z /\
  scheduled (pd_conf pf_h5) (2%Z, 1 / 10000000, fun _ => 1, fun _ => 0) /\ scheduled (pd_conf pf_h5) (4%Z, 2 / 10000000, fun _ => 2, fun _ => 0) /\
  real_name (1 / 10000000) = real_name (2 / 10000000) /\ real_name (1 / 10000000) = "0.000000"%string.
Proof.
  cbv zeta. split; [apply un_setup|]. split; [exact (Forall_inv pf_usable)|]. do 3 (split; [reflexivity|]). split; [|split; [|split]].
  - split; [exists 1%Z; reflexivity|cbn; lra].
  - split; [exists 2%Z; reflexivity|cbn; lra].
  - unfold real_name. rewrite !micro_small by lra. destruct (Rlt_dec (1 / 10000000) 0); [lra|]. destruct (Rlt_dec (2 / 10000000) 0); [lra|]. reflexivity.
  - unfold real_name. rewrite micro_small by lra. destruct (Rlt_dec (1 / 10000000) 0); [lra|]. reflexivity.
Qed.

(** The configuration of [program_case] (ProgProps.v) with the volume probe
    only: the program with this probe completes 3 steps. *)
Local Open Scope string_scope.
Definition pf_yaml (outlet start nt : string) : yaml :=
  YMap [("directory", YScalar "/run"); ("output", YScalar "/run/output"); ("logs", YScalar "/run/output/logs");
        ("mesh", YSeq [ex_axis "y" "1.0" "3"; ex_axis "x" "4.0" "4"]); ("flow", ex_flow_of outlet); ("parameters", px_pars start nt);
        ("probes", YSeq [px_probe])].
Example program_wake_case : forall to bo ss ns s n, In (to, bo) doc_bctypes -> bo <> PERIODIC -> to_int ex_reader ss = Some s -> to_int ex_reader ns = Some n ->
  documented ex_reader ex_lambda false (fun _ => true) ex_np (pf_yaml to ss ns) ex_axs (ex_bcs_of bo) (1 / 100)
    [(fun x y _ _ _ => x * y); (fun _ _ _ _ nu => nu)] (fun _ _ _ _ _ => 0) (px_conf s n) [3/2; -(1/2)] (1/2) [1/2].
Proof.
  intros to bo ss ns s n Ho Hp Hs Hn. destruct (configuration_case_of to bo Ho Hp) as (C1 & C2 & C3 & C4 & C5). destruct (initial_conditions_case_of to) as (I1 & I2).
  constructor; try assumption.
  - destruct C1 as (st & ays & fl & bys & parts & E0 & A1 & A2 & A3 & A4 & A5 & A6). injection E0 as <-.
    injection A1 as <-. injection A3 as <-. eexists. do 4 eexists. split; [reflexivity|]. split; [reflexivity|]. split; [exact A2|]. split; [reflexivity|]. split; [exact A4|]. split; [exact A5|exact A6].
  - left. reflexivity.
  - split; [|split; [reflexivity|exact C5]]. intros d Hd. unfold ex_np. destruct (d =? 0)%Z; lia.
  - destruct I1 as (st & fl & ws & E0 & A1 & A2). injection E0 as <-. injection A1 as <-. do 3 eexists. split; [reflexivity|]. split; [reflexivity|]. exact A2.
  - cbn. lia.
  - exists (match pf_yaml to ss ns with YMap l => l | _ => [] end), (match px_pars ss ns with YMap l => l | _ => [] end), "/run".
    assert (Re : forall k x v, assoc (match px_pars ss ns with YMap l => l | _ => [] end) k = Some (YScalar x) -> to_real ex_reader x = Some v ->
      real_entry ex_reader (YMap (match px_pars ss ns with YMap l => l | _ => [] end)) k v) by (intros; do 2 eexists; eauto).
    assert (Ie : forall k x v, assoc (match px_pars ss ns with YMap l => l | _ => [] end) k = Some (YScalar x) -> to_int ex_reader x = Some v ->
      int_entry ex_reader (YMap (match px_pars ss ns with YMap l => l | _ => [] end)) k v) by (intros; do 2 eexists; eauto).
    split; [reflexivity|]. split; [reflexivity|]. split; [eexists; split; reflexivity|]. split; [eexists; split; reflexivity|]. split; [eexists; split; reflexivity|].
    split; [apply (Re _ "0.01"); reflexivity|]. split; [left; split; reflexivity|]. split; [right; apply (Ie _ ss); [reflexivity|exact Hs]|].
    split; [apply (Ie _ ns); [reflexivity|exact Hn]|]. split; [apply (Ie _ "3"); reflexivity|]. split; [apply (Ie _ "3"); reflexivity|].
    split; [left; split; reflexivity|]. split; [eexists; split; reflexivity|]. split; [eexists; split; reflexivity|]. split.
    + do 2 eexists. split; [reflexivity|]. split; [right; eexists; split; reflexivity|]. exists "/run/solvers.info". split.
      * right. right. exists "solvers.info". split; [eexists; split; reflexivity|]. split; [discriminate|]. split; reflexivity.
      * left. split; [reflexivity|]. split; [reflexivity|]. right. reflexivity.
    + do 2 eexists. split; [reflexivity|]. split; [right; eexists; split; reflexivity|]. exists "/etc/solvers.info". split.
      * right. left. exists "etc/solvers.info". split; [eexists; split; reflexivity|]. reflexivity.
      * left. split; [reflexivity|]. split; [reflexivity|]. right. reflexivity.
  - cbn. tauto.
  - cbn. tauto.
  - exists [px_wake]. eexists. split; [reflexivity|]. right. eexists. split; [reflexivity|]. constructor; [|constructor].
    eexists. split; [reflexivity|]. split; [right; eexists; split; reflexivity|]. split; [exists "v"; split; [eexists; split; reflexivity|cbn; tauto]|].
      split; [exists "wake.dat"; split; [eexists; split; reflexivity|reflexivity]|]. split; [left; split; reflexivity|]. split; [left; split; reflexivity|].
      split; [left; split; reflexivity|]. left. split; [reflexivity|]. split; [left; split; reflexivity|].
      split; [exists "ascii"; split; [left; split; reflexivity|left; split; reflexivity]|]. split; [left; split; reflexivity|]. split; [left; split; reflexivity|].
      do 2 eexists. split; [reflexivity|]. split.
      { constructor; [|constructor; [|constructor]].
        - instantiate (1 := ("y", 0, 1)). exists "0.0", "1.0". cbn. split; [reflexivity|]. split; [tauto|]. split; reflexivity.
        - instantiate (1 := ("x", 1, 4)). exists "1.0", "4.0". cbn. split; [reflexivity|]. split; [tauto|]. split; reflexivity. }
      split; [cbn; repeat constructor; cbn; intuition discriminate|].
      intros w a b d Hi Hd. cbn in Hi, Hd. destruct Hi as [Hi|[Hi|[]]]; injection Hi as <- <- <-;
        repeat (destruct Hd as [Hd|Hd]; [try discriminate; injection Hd as <-; split; reflexivity|]); destruct Hd.
Qed.
Lemma pf_described m probes : m_dim m = 2%Z -> describes_probes ex_reader 2 "/run/output" (pf_yaml "NEUMANN" "0" "3") probes -> Forall (probe_usable m) probes /\ NoDup (map pd_path probes).
Proof.
  intros Hd (st & E & [(E0 & _)|(l & El & HF)]); injection E as <-; [discriminate|]. cbn in El. injection El as <-.
  inversion HF as [|yy p la lb Hp HF' E1 E2]; subst. inversion HF'; subst. split; [|repeat constructor; cbn; tauto]. constructor; [|constructor].
  destruct Hp as (l & E & _ & (w & Hw & Hf) & _ & Hnm & _ & _ & Hk). injection E as <-.
  destruct Hw as (l' & E & Ew). injection E as <-. cbn in Ew. injection Ew as <-.
  assert (Ef : pc_field (pd_conf p) = 1%Z).
  { cbn in Hf. repeat (destruct Hf as [Hf|Hf]; [first [discriminate Hf|injection Hf as <-; reflexivity]|]). destruct Hf. }
  split.
  - destruct Hnm as [(_ & ->)|(l' & v & E & Hv & _)]; [discriminate|]. injection E as <-. discriminate Hv.
  - left. destruct Hk as [(Ek & _ & _ & Ha & _ & (bx & dirs & Ebx & Hbx & _ & Hdir))|(_ & (l' & E & Et) & _)]; [|injection E as <-; discriminate Et].
    split; [exact Ek|]. rewrite Ef, Hd. split; [lia|]. cbn in Ebx. injection Ebx as <-.
    assert (Ea : pd_atol p = 1 / 1000000) by (destruct Ha as [(_ & ->)|(l' & v & E & Hv & _)]; [reflexivity|injection E as <-; discriminate Hv]).
    inversion Hbx as [|k1 [[w1 a1] b1] lx ly G1 Hb2 X1 X2]; subst. inversion Hb2 as [|k2 [[w2 a2] b2] lx2 ly2 G2 Hb3 X3 X4]; subst. inversion Hb3; subst.
    destruct G1 as (sa & sb & E & _ & Ra & Rb). injection E as <- <- <-. cbn in Ra, Rb. injection Ra as <-. injection Rb as <-.
    destruct G2 as (sa & sb & E & _ & Ra & Rb). injection E as <- <- <-. cbn in Ra, Rb. injection Ra as <-. injection Rb as <-.
    destruct (Hdir "y" _ _ 1%Z (or_introl eq_refl) ltac:(cbn; tauto)) as [L1 H1]. destruct (Hdir "x" _ _ 0%Z (or_intror (or_introl eq_refl)) ltac:(cbn; tauto)) as [L0 H0].
    intros d i Hd' _ [X Y]. rewrite Hd in Hd'. rewrite Ea in *. assert (d = 0 \/ d = 1)%Z as [->| ->] by lia; [rewrite L0, H0 in *|rewrite L1, H1 in *]; lra.
Qed.
Example program_probe_case : exists s2 d2 tr q2,
  ns_program_p ex_reader ex_lambda false (fun _ => true) ex_np (fun _ _ b => b) 3 (Some (pf_yaml "NEUMANN" "0" "3")) (fun _ => None) (fun _ => None) = Ok (Some (s2, d2, tr, q2)).
Proof.
  pose proof (program_wake_case "NEUMANN" NEUMANN "0" "3" 0 3 ltac:(cbn; tauto) ltac:(discriminate) eq_refl eq_refl) as Hdoc.
  destruct (program_completes _ _ _ _ _ _ _ _ _ _ _ _ _ _ _ (fun _ _ b => b) (fun _ _ => []) 3 (fun _ => None) Hdoc eq_refl ltac:(discriminate) ltac:(discriminate) ltac:(cbn; lia) ltac:(cbn; lia)) as (s2 & d2 & tr & E & _).
  destruct (program_probe_files _ _ _ _ _ _ _ _ _ _ _ _ _ _ _ Hdoc) as (m & D & types & values & U0 & p0 & probes & Hs & Hd & _ & Hp & Hiff & _).
  destruct (pf_described m probes Hd Hp) as [Hu _]. apply (Hiff Hu _ _ _ (fun _ => None)) in E. destruct E as (q2 & E). eauto.
Qed.
