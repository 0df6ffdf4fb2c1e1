(** C38, C39, C40, C52, C57: the program, its files, restarts and crashes. *)
From Coq Require Import String ZifyBool.
From Verif Require Import Prelude ZSum RSum TypesModel GridModel GridSpec GridProof MeshProof IndexModel IndexSpec IndexProof
  BoundaryModel BoundarySpec BoundaryProof OperatorModel OperatorSpec OperatorProof BStateProof LapProof AdjProof
  MatModel BnModel NSModel NSSpec NSProof NSTotal NSProps NameModel NameSpec NameProof DriverModel DriverSpec DriverProof DriveProof RestartProof RunProof ExampleSetup.
Local Open Scope R_scope.

(** C52. A file written by solution->write on decomposition D1 and read by
    solution->read on decomposition D2 of the same mesh gives every point of
    every component, and of the pressure, its value, whatever the vectors read
    into held. *)
Theorem solution_file_roundtrip : forall m D1 D2 path d U p V q, mesh_setup m D1 -> mesh_setup m D2 ->
  exists U' p', solution_read m D2 path (run_ops (solution_write m D1 path U p) d) V q = Ok (U', p') /\
    (forall f x i1 i2, nthZ (packed_layout (m_dim m) D1) i1 = Some (f, x) -> nthZ (packed_layout (m_dim m) D2) i2 = Some (f, x) -> U' i2 = U i1) /\
    (forall x i1 i2, nthZ (field_layout D1 3) i1 = Some x -> nthZ (field_layout D2 3) i2 = Some x -> p' i2 = p i1).
Proof.
  intros m D1 D2 path d U p V q H1 H2. pose proof (setup_facts _ _ H1) as F1. pose proof (setup_facts _ _ H2) as F2.
  destruct (solution_write_file m D1 path U p d F1) as (F & E & Hv & Hp).
  destruct (solution_read_ok m D1 D2 path _ U p F V q F1 F2 E Hv Hp) as (U' & p' & X1 & X2 & X3). exists U', p'. split; [exact X1|]. split; [exact X2|exact X3].
Qed.
Print Assumptions solution_file_roundtrip.

(** C52. The file holds each component in natural order (i fastest, then j, then
    k): independent of the decomposition. *)
Theorem solution_file_natural_order : forall m D path d U p, mesh_setup m D ->
  exists F, run_ops (solution_write m D path U p) d path = Some F /\
    (forall f, (0 <= f < m_dim m)%Z -> exists l, f_sets F (set_name f) = Some l /\ lenZ l = npoints (m_n m f) /\
       forall i x, nthZ (packed_layout (m_dim m) D) i = Some (f, x) -> nthZ l (natural (m_n m f) x) = Some (U i)) /\
    (exists l, f_sets F "/p" = Some l /\ lenZ l = npoints (m_n m 3) /\
       forall i x, nthZ (field_layout D 3) i = Some x -> nthZ l (natural (m_n m 3) x) = Some (p i)).
Proof.
  intros m D path d U p Hset. destruct (solution_write_file m D path U p d (setup_facts _ _ Hset)) as (F & E & Hv & Hp).
  exists F. split; [exact E|]. split; [exact Hv|exact Hp].
Qed.
Print Assumptions solution_file_natural_order.

(** C38. A run performs exactly nt steps, ends at step nstart + nt and time
    t + nt dt; write() is called once per step, in order. *)
Theorem run_length : forall m D P types values t0 U0 p0 conv vs ps conf mon fuel d s2 d2 tr ops s1,
  started conf m D P types values t0 U0 p0 d ops s1 ->
  ns_main fuel conf m D P types values t0 U0 p0 mon conv vs ps d = Ok (Some (s2, d2, tr)) ->
  s_ite s1 = c_nstart conf /\ ns_steps m D P ops conv vs ps (Z.to_nat (c_nt conf)) s1 = Ok s2 /\
  s_ite s2 = (c_nstart conf + Z.max 0 (c_nt conf))%Z /\ s_t s2 = s_t s1 + INR (Z.to_nat (c_nt conf)) * p_dt P /\
  map fst tr = zrange (c_nstart conf) (c_nstart conf + Z.max 0 (c_nt conf) + 1) /\
  d2 = run_ops (init_ops m conf ++ trace_ops tr) d.
Proof. exact run_length_lemma. Qed.
Print Assumptions run_length.

(** C38. A fresh run always completes, within nt iterations of the loop. *)
Theorem run_completes : forall m D P types values t0 U0 p0 conv vs ps conf mon fuel d, mesh_setup m D -> bc_fits m types -> (1 <= p_bn P)%Z ->
  (forall h B x, boundary_after m D types values ([OpICs U0] ++ h) B -> is_ok (conv B x)) ->
  c_nstart conf = 0%Z -> c_nsave conf <> 0%Z -> c_nrestart conf <> 0%Z -> (c_nt conf <= Z.of_nat fuel)%Z ->
  exists ops s1 s2 d2 tr, started conf m D P types values t0 U0 p0 d ops s1 /\
    ns_main fuel conf m D P types values t0 U0 p0 mon conv vs ps d = Ok (Some (s2, d2, tr)).
Proof. exact run_completes_lemma. Qed.
Print Assumptions run_completes.
(** With nsave = 0 (or nrestart = 0) the first step divides by zero. *)
Theorem save_every_zero_refuted : forall conf m D mon s d, c_nsave conf = 0%Z \/ c_nrestart conf = 0%Z -> write_step conf m D mon s d = UB.
Proof.
  intros conf m D mon s d H. unfold write_step. destruct (Z.eqb_spec (c_nsave conf) 0); [reflexivity|]. destruct H as [H|H]; [contradiction|].
  rewrite H. reflexivity.
Qed.
Print Assumptions save_every_zero_refuted.

(** C38. The files at the end of the run. For step n of the run: if nsave | n, or
    nrestart | n and there was no file of that step, its file holds the state
    after n - nstart steps, with the explicit history when nrestart | n; if only
    nrestart | n and a file was there, that file keeps its old solution and gets
    the new history; otherwise the file is untouched. Files of other steps are
    untouched. A fresh start writes step 0. *)
Theorem output_schedule : forall m D P types values t0 U0 p0 conv vs ps conf mon fuel d s2 d2 tr ops s1,
  mesh_setup m D -> started conf m D P types values t0 U0 p0 d ops s1 ->
  ns_main fuel conf m D P types values t0 U0 p0 mon conv vs ps d = Ok (Some (s2, d2, tr)) ->
  probes_elsewhere (c_out conf) mon -> (0 <= c_nstart conf)%Z -> c_nsave conf <> 0%Z -> c_nrestart conf <> 0%Z ->
  let N := c_nstart conf in let path := solution_path (c_out conf) in
  (forall k sk, (1 <= k <= Z.to_nat (c_nt conf))%nat -> ns_steps m D P ops conv vs ps k s1 = Ok sk ->
     let n := (N + Z.of_nat k)%Z in
     ((c_nsave conf | n)%Z \/ (c_nrestart conf | n)%Z /\ d (path n) = None ->
        exists F, d2 (path n) = Some F /\ holds_solution m D sk F /\ ((c_nrestart conf | n)%Z -> holds_history m sk F)) /\
     (~ (c_nsave conf | n)%Z -> (c_nrestart conf | n)%Z -> forall F0, d (path n) = Some F0 ->
        exists F, d2 (path n) = Some F /\ holds_history m sk F /\ f_time F = f_time F0 /\ forall nm, ~ is_history nm -> f_sets F nm = f_sets F0 nm) /\
     (~ (c_nsave conf | n)%Z -> ~ (c_nrestart conf | n)%Z -> d2 (path n) = d (path n))) /\
  (forall n, (0 <= n)%Z -> ~ (N < n <= N + Z.max 0 (c_nt conf))%Z -> (n <> 0 \/ N <> 0)%Z -> d2 (path n) = d (path n)) /\
  (N = 0%Z -> exists F, d2 (path 0%Z) = Some F /\ holds_solution m D s1 F).
Proof. exact run_files_lemma. Qed.
Print Assumptions output_schedule.

(** C39. Run A makes k + j steps. Run 1, from the same disk, makes k steps; the
    last is a restart step and its file is new or a solution step. Run 2 restarts
    on the disk run 1 left and makes j steps: it succeeds and ends with the
    time, step, velocity, pressure and history of run A. Boundaries: Dirichlet,
    Neumann, periodic. The momentum solver may start from the current velocity;
    the Poisson solver must not depend on its initial guess. *)
Theorem restart_equivalent : forall m D P types values t0 U0 p0 conv vs ps monA mon1 mon2 confA conf1 conf2 fuelA fuel1 fuel2 d sA dA trA s1' d1 tr1 k j,
  mesh_setup m D -> bc_fits m types -> no_convective m types ->
  conv_respects m D conv -> vsolve_respects (n_velocity m) vs -> psolve_respects (n_pressure m) ps ->
  c_out confA = c_out conf1 -> c_out conf2 = c_out conf1 -> c_nstart confA = c_nstart conf1 -> (0 <= c_nstart conf1)%Z ->
  probes_elsewhere (c_out conf1) mon1 ->
  c_nt conf1 = Z.of_nat k -> (1 <= k)%nat -> c_nt confA = Z.of_nat (k + j) ->
  c_nstart conf2 = (c_nstart conf1 + Z.of_nat k)%Z -> c_nt conf2 = Z.of_nat j ->
  ns_main fuelA confA m D P types values t0 U0 p0 monA conv vs ps d = Ok (Some (sA, dA, trA)) ->
  ns_main fuel1 conf1 m D P types values t0 U0 p0 mon1 conv vs ps d = Ok (Some (s1', d1, tr1)) ->
  (c_nrestart conf1 | c_nstart conf2)%Z ->
  (c_nsave conf1 | c_nstart conf2)%Z \/ d (solution_path (c_out conf1) (c_nstart conf2)) = None ->
  c_nsave conf2 <> 0%Z -> c_nrestart conf2 <> 0%Z -> (j <= fuel2)%nat ->
  exists sB dB trB, ns_main fuel2 conf2 m D P types values t0 U0 p0 mon2 conv vs ps d1 = Ok (Some (sB, dB, trB)) /\ same_fields m sA sB.
Proof.
  intros m D P types values t0 U0 p0 conv vs ps monA mon1 mon2 confA conf1 conf2 fuelA fuel1 fuel2 d sA dA trA s1' d1 tr1 k j
    Hset Hb Hnc Hcv Hvs Hps HoA Ho2 HnA H0 Hpr Hk Hk1 HkA Hn2 Hj HA H1 Hr Hs Hsv Hrs Hfu.
  destruct (main_inv _ _ _ _ _ _ _ _ _ _ _ _ _ _ _ _ _ _ H1) as (ops & s0 & s1 & w & tr' & E1 & E2 & _).
  assert (Hst : started conf1 m D P types values t0 U0 p0 d ops s1) by (exists s0, w; auto).
  assert (HstA : started confA m D P types values t0 U0 p0 d ops s1).
  { exists s0. destruct (main_inv _ _ _ _ _ _ _ _ _ _ _ _ _ _ _ _ _ _ HA) as (opsA & s0A & s1A & wA & trA' & X1 & X2 & _).
    exists wA. rewrite HnA in X1. rewrite E1 in X1. injection X1 as <- <-. rewrite HnA. split; [exact E1|].
    unfold io_initial in *. unfold init_ops in *. rewrite HoA, HnA in *. rewrite X2. f_equal. f_equal.
    destruct (s_ite s0 =? 0)%Z; [injection X2 as <- <-; injection E2 as <- <-; reflexivity|]. rewrite E2 in X2. injection X2 as <- <-. reflexivity. }
  destruct (run_length_lemma m D P types values t0 U0 p0 conv vs ps conf1 mon1 fuel1 d s1' d1 tr1 ops s1 Hst H1) as (Hi & Hks & _).
  destruct (run_length_lemma m D P types values t0 U0 p0 conv vs ps confA monA fuelA d sA dA trA ops s1 HstA HA) as (_ & HkAs & _).
  rewrite Hk, Nat2Z.id in Hks. rewrite HkA, Nat2Z.id in HkAs.
  assert (Hz : c_nsave conf1 <> 0%Z /\ c_nrestart conf1 <> 0%Z).
  { destruct (main_inv _ _ _ _ _ _ _ _ _ _ _ _ _ _ _ _ _ _ H1) as (o' & s0' & s1'' & w' & tr'' & _ & _ & X3 & _ & X5 & _).
    assert (T : (1 <= todo conf1 s1'')%nat) by (unfold todo; rewrite X5; lia).
    destruct (trace_nth _ _ _ _ _ _ _ _ _ _ _ _ _ _ _ 1%nat X3 ltac:(lia)) as (ta & o1 & tb & Et & _).
    destruct (drive_split _ _ _ _ _ _ _ _ _ _ _ _ _ _ _ X3 _ _ _ _ Et) as (sj & _ & _ & Ew). destruct (write_step_inv _ _ _ _ _ _ _ Ew) as (Z1 & Z2 & _). auto. }
  destruct (run_files_lemma m D P types values t0 U0 p0 conv vs ps conf1 mon1 fuel1 d s1' d1 tr1 ops s1 Hset Hst H1 Hpr H0 (proj1 Hz) (proj2 Hz)) as (A & _).
  destruct (A k s1' ltac:(lia) Hks) as (A1 & _). rewrite Hn2 in Hr, Hs.
  destruct A1 as (Fl & EF & HS & HH); [destruct Hs as [Hs|Hs]; auto|].
  exact (restart_lemma m D P types values t0 U0 p0 conv vs ps conf1 mon1 fuel1 d s1' d1 tr1 ops s1 Hset Hb Hst H1 conf2 fuel2 mon2 d1 k j Hnc Hcv Hvs Hps
    s1' sA Fl Hks HkAs ltac:(lia) Hn2 Hj Hsv Hrs Hfu Ho2 EF HS (HH Hr)).
Qed.
Print Assumptions restart_equivalent.

(** C40. A crash at any point of the run ([done] executed, [rest] not): the files
    of steps outside the run are as before, and the file of every step of the run
    whose output was complete holds the state of that step. *)
Theorem crash_keeps_other_steps : forall m D P types values t0 U0 p0 conv vs ps conf mon fuel d s2 d2 tr ops s1 done rest d' n,
  started conf m D P types values t0 U0 p0 d ops s1 ->
  ns_main fuel conf m D P types values t0 U0 p0 mon conv vs ps d = Ok (Some (s2, d2, tr)) ->
  probes_elsewhere (c_out conf) mon -> (0 <= c_nstart conf)%Z ->
  init_ops m conf ++ trace_ops tr = done ++ rest -> crash_at done rest d d' ->
  (0 <= n)%Z -> ~ (c_nstart conf < n <= c_nstart conf + Z.max 0 (c_nt conf))%Z -> (n <> 0 \/ c_nstart conf <> 0)%Z ->
  d' (solution_path (c_out conf) n) = d (solution_path (c_out conf) n).
Proof.
  intros m D P types values t0 U0 p0 conv vs ps conf mon fuel d s2 d2 tr ops s1 done rest d' n Hst Hm Hpr H0.
  exact (crash_untouched_lemma m D P types values t0 U0 p0 conv vs ps conf mon fuel d s2 d2 tr ops s1 Hst Hm Hpr H0 done rest d' n).
Qed.
Print Assumptions crash_keeps_other_steps.
Theorem crash_keeps_completed_steps : forall m D P types values t0 U0 p0 conv vs ps conf mon fuel d s2 d2 tr ops s1 done rest d' tr1 n o tr2 k sk,
  mesh_setup m D -> started conf m D P types values t0 U0 p0 d ops s1 ->
  ns_main fuel conf m D P types values t0 U0 p0 mon conv vs ps d = Ok (Some (s2, d2, tr)) ->
  probes_elsewhere (c_out conf) mon -> (0 <= c_nstart conf)%Z ->
  init_ops m conf ++ trace_ops tr = done ++ rest -> crash_at done rest d d' ->
  tr = tr1 ++ (n, o) :: tr2 -> (length (init_ops m conf ++ trace_ops (tr1 ++ [(n, o)])) <= length done)%nat ->
  n = (c_nstart conf + Z.of_nat k)%Z -> (1 <= k)%nat -> ns_steps m D P ops conv vs ps k s1 = Ok sk ->
  ((c_nsave conf | n)%Z \/ (c_nrestart conf | n)%Z /\ d (solution_path (c_out conf) n) = None) ->
  exists Fl, d' (solution_path (c_out conf) n) = Some Fl /\ holds_solution m D sk Fl /\ ((c_nrestart conf | n)%Z -> holds_history m sk Fl).
Proof.
  intros m D P types values t0 U0 p0 conv vs ps conf mon fuel d s2 d2 tr ops s1 done rest d' tr1 n o tr2 k sk Hset Hst Hm Hpr H0.
  exact (crash_lemma m D P types values t0 U0 p0 conv vs ps conf mon fuel d s2 d2 tr ops s1 Hset Hst Hm Hpr H0 done rest d' tr1 n o tr2 k sk).
Qed.
Print Assumptions crash_keeps_completed_steps.

(** C40. Recovery: restarting on the disk left by the crash, from any restart step
    n that was complete, reaches the state the run would have reached. *)
Theorem crash_recovery : forall m D P types values t0 U0 p0 conv vs ps conf conf2 mon mon2 fuel fuel2 d s2 d2 tr ops s1 done rest d' tr1 n o tr2 k j,
  mesh_setup m D -> bc_fits m types -> no_convective m types ->
  conv_respects m D conv -> vsolve_respects (n_velocity m) vs -> psolve_respects (n_pressure m) ps ->
  started conf m D P types values t0 U0 p0 d ops s1 ->
  ns_main fuel conf m D P types values t0 U0 p0 mon conv vs ps d = Ok (Some (s2, d2, tr)) ->
  probes_elsewhere (c_out conf) mon -> (0 <= c_nstart conf)%Z ->
  init_ops m conf ++ trace_ops tr = done ++ rest -> crash_at done rest d d' ->
  tr = tr1 ++ (n, o) :: tr2 -> (length (init_ops m conf ++ trace_ops (tr1 ++ [(n, o)])) <= length done)%nat ->
  n = (c_nstart conf + Z.of_nat k)%Z -> (1 <= k)%nat -> c_nt conf = Z.of_nat (k + j) ->
  (c_nrestart conf | n)%Z -> (c_nsave conf | n)%Z \/ d (solution_path (c_out conf) n) = None ->
  c_out conf2 = c_out conf -> c_nstart conf2 = n -> c_nt conf2 = Z.of_nat j -> c_nsave conf2 <> 0%Z -> c_nrestart conf2 <> 0%Z -> (j <= fuel2)%nat ->
  exists sB dB trB, ns_main fuel2 conf2 m D P types values t0 U0 p0 mon2 conv vs ps d' = Ok (Some (sB, dB, trB)) /\ same_fields m s2 sB.
Proof.
  intros m D P types values t0 U0 p0 conv vs ps conf conf2 mon mon2 fuel fuel2 d s2 d2 tr ops s1 done rest d' tr1 n o tr2 k j
    Hset Hb Hnc Hcv Hvs Hps Hst Hm Hpr H0 E C Et Hl Hn Hk Hnt Hr Hs Ho Hs2 Hnt2 Hsv Hrs Hfu.
  destruct (run_length_lemma m D P types values t0 U0 p0 conv vs ps conf mon fuel d s2 d2 tr ops s1 Hst Hm) as (Hi & Hks & _).
  rewrite Hnt, Nat2Z.id in Hks. pose proof Hks as Hks'. rewrite steps_add in Hks'. apply bind_ok_inv in Hks'. destruct Hks' as (sk & Ek & _).
  destruct (crash_lemma m D P types values t0 U0 p0 conv vs ps conf mon fuel d s2 d2 tr ops s1 Hset Hst Hm Hpr H0 done rest d' tr1 n o tr2 k sk E C Et Hl Hn Hk Ek) as (Fl & EF & HS & HH).
  { destruct Hs; auto. }
  rewrite Hn in EF, Hr, Hs2.
  exact (restart_lemma m D P types values t0 U0 p0 conv vs ps conf mon fuel d s2 d2 tr ops s1 Hset Hb Hst Hm conf2 fuel2 mon2 d' k j Hnc Hcv Hvs Hps
    sk s2 Fl Ek Hks ltac:(lia) Hs2 Hnt2 Hsv Hrs Hfu Ho EF HS ltac:(rewrite Hn in HH; exact (HH Hr))).
Qed.
Print Assumptions crash_recovery.

(** C40. The restart file of step n does not always hold the solution of step n:
    when nrestart | n but not nsave | n and a file of that step exists (from an
    earlier run), the old solution is kept beside the new history. *)
Definition dsk0 : disk := fun _ => None.
Lemma stale_case m D P types values U0 p0 conv vs ps mon : mesh_setup m D -> bc_fits m types -> (1 <= p_bn P)%Z ->
  (forall h B x, boundary_after m D types values ([OpICs U0] ++ h) B -> is_ok (conv B x)) -> probes_elsewhere "o" mon ->
  exists conf d F0 s2 d2 tr F, ns_main 1 conf m D P types values 0 U0 p0 mon conv vs ps d = Ok (Some (s2, d2, tr)) /\ s_ite s2 = 1%Z /\ (c_nrestart conf | 1)%Z /\
    d (solution_path (c_out conf) 1) = Some F0 /\ d2 (solution_path (c_out conf) 1) = Some F /\ holds_history m s2 F /\
    f_sets F "/p" = f_sets F0 "/p" /\ f_time F = f_time F0 /\ ~ holds_solution m D s2 F.
Proof.
  intros Hset Hb Hn Hc Hm. set (conf := mkConf "o" "l" 0 1 2 1). set (d := fun p => if String.eqb p (solution_path "o" 1) then Some empty_file else None : option file).
  destruct (run_completes m D P types values 0 U0 p0 conv vs ps conf mon 1 d Hset Hb Hn Hc) as (ops & s1 & s2 & d2 & tr & Hst & Hr);
    try (cbn; lia); try reflexivity.
  destruct (run_length _ _ _ _ _ _ _ _ _ _ _ _ _ _ _ _ _ _ _ _ Hst Hr) as (_ & Hk & Hi & _).
  destruct (output_schedule _ _ _ _ _ _ _ _ _ _ _ _ _ _ _ _ _ _ _ _ Hset Hst Hr Hm ltac:(cbn; lia) ltac:(cbn; lia) ltac:(cbn; lia)) as (A & _).
  destruct (A 1%nat s2 ltac:(cbn; lia) Hk) as (_ & A2 & _).
  assert (E0 : d (solution_path (c_out conf) 1) = Some empty_file) by reflexivity.
  destruct (A2 ltac:(intros [q Hq]; cbn in Hq; lia) ltac:(exists 1%Z; reflexivity) empty_file E0) as (F & EF & HH & Ht & Hs).
  exists conf, d, empty_file, s2, d2, tr, F. split; [exact Hr|]. split; [exact Hi|]. split; [exists 1%Z; reflexivity|]. split; [exact E0|]. split; [exact EF|]. split; [exact HH|].
  assert (Hp : f_sets F "/p" = f_sets empty_file "/p") by (apply Hs; apply p_not_history). split; [exact Hp|]. split; [exact Ht|].
  intros (_ & (l & El & _) & _). rewrite Hp in El. discriminate.
Qed.
Theorem stale_restart_file_refuted : exists conf m D P types values U0 p0 mon conv vs ps d F0 s2 d2 tr F,
  mesh_setup m D /\ bc_fits m types /\ ns_main 1 conf m D P types values 0 U0 p0 mon conv vs ps d = Ok (Some (s2, d2, tr)) /\ s_ite s2 = 1%Z /\ (c_nrestart conf | 1)%Z /\
    d (solution_path (c_out conf) 1) = Some F0 /\ d2 (solution_path (c_out conf) 1) = Some F /\ holds_history m s2 F /\
    f_sets F "/p" = f_sets F0 "/p" /\ f_time F = f_time F0 /\ ~ holds_solution m D s2 F.
Proof.
  destruct (stale_case (ex_mesh true true) (ex_dec true true) (ex_par false) per_types (fun _ _ => 0) (fun _ => 0) (fun _ => 0) (fun _ x => Ok x) (fun g _ => g) (fun g _ => g)
    (fun _ => []) (ex_setup true true) ex_per_fits ltac:(cbn; lia) ltac:(intros; eexists; reflexivity) ltac:(intros s o n [])) as (conf & d & F0 & s2 & d2 & tr & F & X).
  exists conf, (ex_mesh true true), (ex_dec true true), (ex_par false), per_types, (fun _ _ => 0), (fun _ => 0), (fun _ => 0), (fun _ => []), (fun _ x => Ok x), (fun g _ => g), (fun g _ => g), d, F0, s2, d2, tr, F.
  split; [apply ex_setup|]. split; [exact ex_per_fits|exact X].
Qed.
Print Assumptions stale_restart_file_refuted.

(** C39. With a convective boundary the restart is not equivalent: the restart
    file lacks the ghost values, which are re-initialised from the velocity. After one step
    and a restart all the fields agree but a ghost value differs. *)
Definition cv_types (f loc : Z) : bctype := if (loc =? 1)%Z then CONVECTIVE else DIRICHLET.
Lemma cv_fits : bc_fits (ex_mesh false false) cv_types.
Proof.
  intros f loc Hf Hl. rewrite ex_dim in Hl. unfold cv_types.
  assert (loc = 0 \/ loc = 1 \/ loc = 2 \/ loc = 3)%Z as [->|[->|[->| ->]]] by lia; split; try discriminate; split; discriminate.
Qed.
Lemma pure_ghost m D types values f loc q : mfacts m D -> bc_fits m types -> (0 <= f < m_dim m)%Z -> (0 <= loc < m_dim m * 2)%Z -> types f loc <> PERIODIC ->
  is_ghost (m_n m f) loc q ->
  exists r p, (0 <= r < nranks D)%Z /\ (0 <= gi_tid p < n_velocity m)%Z /\
    forall h B, boundary_after m D types values h B ->
      ghost_value D B f q (gi_value (fold_left (pstep (bsb m D types values r f loc)) h p)).
Proof.
  intros F Hb Hf Hl Hper Hg. destruct (ghost_one_rank m D f loc q F Hf Hl Hg) as (r & Hr & Hin & _). apply in_map_iff in Hin. destruct Hin as ([s p] & Es & Hin). cbn [fst] in Es. subst s.
  exists r, p. split; [exact Hr|]. split; [eapply gl_tid; eauto|]. intros h B HB.
  exists r, (map (fun loc => sb_after (bsb m D types values r f loc) h) (zrange 0 (m_dim m * 2))), loc, (sb_after (bsb m D types values r f loc) h),
    (fold_left (pstep (bsb m D types values r f loc)) h p).
  split; [exact Hr|]. rewrite (after_pure _ _ _ _ _ _ r F Hb HB Hr). unfold pure_state. rewrite !nthZ_map. rewrite !nthZ_zrange by lia. cbn [option_map].
  split; [now rewrite Z.add_0_l|]. split; [now rewrite Z.add_0_l|]. split; [|reflexivity].
  unfold sb_after. cbn [with_points sb_points]. apply (in_map (fun kp => (fst kp, fold_left (pstep (bsb m D types values r f loc)) h (snd kp))) _ (st_of q, p)).
  rewrite bsb_points. destruct (types f loc); auto. contradiction.
Qed.
Lemma convective_case m D P values p0 q : mesh_setup m D -> bc_fits m cv_types -> (1 <= p_bn P)%Z -> (1 < m_dim m)%Z -> is_ghost (m_n m 1) 1 q ->
  let conv := fun (_ : boundary) (x : vec) => Ok x in let vs := fun (_ _ : vec) => (fun _ => 1) : vec in let ps := fun (_ _ : vec) => (fun _ => 0) : vec in
  exists conf conf2 s d1 tr ops s', ns_main 1 conf m D P cv_types values 0 (fun _ => 0) p0 (fun _ => []) conv vs ps dsk0 = Ok (Some (s, d1, tr)) /\
    started conf2 m D P cv_types values 0 (fun _ => 0) p0 d1 ops s' /\ c_out conf2 = c_out conf /\ c_nstart conf2 = s_ite s /\ same_fields m s s' /\
    exists v v', ghost_value D (s_bc s) 1 q v /\ ghost_value D (s_bc s') 1 q v' /\ v <> v'.
Proof.
  intros Hset Hb Hn Hd Hg conv vs ps. pose proof (setup_facts _ _ Hset) as HF. set (conf := mkConf "o" "l" 0 1 1 1). set (conf2 := mkConf "o" "l" 1 1 1 1).
  destruct (run_completes m D P cv_types values 0 (fun _ => 0) p0 conv vs ps conf (fun _ => []) 1 dsk0 Hset Hb Hn) as (ops & s1 & s & d1 & tr & Hst & Hr);
    try (cbn; lia); try reflexivity. { intros. eexists. reflexivity. }
  destruct (run_length _ _ _ _ _ _ _ _ _ _ _ _ _ _ _ _ _ _ _ _ Hst Hr) as (_ & Hk & Hi & _). change (Z.to_nat (c_nt conf)) with 1%nat in Hk. change (c_nstart conf + Z.max 0 (c_nt conf))%Z with 1%Z in Hi.
  destruct (output_schedule _ _ _ _ _ _ _ _ _ _ _ _ _ _ _ _ _ _ _ _ Hset Hst Hr ltac:(intros ? ? ? []) ltac:(cbn; lia) ltac:(cbn; lia) ltac:(cbn; lia)) as (A & _).
  destruct (A 1%nat s ltac:(cbn; lia) Hk) as (A1 & _). destruct A1 as (F & EF & HS & HH); [left; exists 1%Z; reflexivity|]. specialize (HH ltac:(exists 1%Z; reflexivity)).
  destruct Hst as (s0 & w & EI & EIO). assert (s1 = s0) as ->.
  { unfold io_initial in EIO. destruct (ns_init_step _ _ _ _ _ _ _ 0 _ _ _ _ EI) as [Hi0 _]. rewrite Hi0 in EIO. injection EIO as <- <-. reflexivity. }
  destruct (ns_init_step _ _ _ _ _ _ _ 1 _ _ _ _ EI) as [Hi0 EI2].
  set (s0' := mkNS (s_t s0) 1 (s_U s0) (s_p s0) (s_dP s0) (s_conv s0) (s_diff s0) (s_bc s0)) in EI2.
  destruct (ns_init_inv _ _ _ _ _ _ _ _ _ _ _ HF Hb EI) as (B0 & HB0 & _ & E0).
  destruct (steps_slots _ _ _ _ _ _ _ _ _ _ Hk) as [Lc Ld].
  set (dd := run_ops (init_ops m conf2) d1).
  assert (EF2 : dd (solution_path "o" 1) = Some F) by (unfold dd; pose proof (init_ops_other m conf2 d1 1 ltac:(lia)) as X; change (c_out conf2) with "o"%string in X; rewrite X; exact EF).
  destruct (read_restart_ok m D cv_types values (solution_path "o" 1) dd F s s0' [OpICs (fun _ => 0)] HF Hb EF2 HS HH) as (s' & ER & SF & HB'); auto.
  { cbn [s0' s_bc]. rewrite E0. exact HB0. }
  exists conf, conf2, s, d1, tr, ops, s'. split; [exact Hr|]. split.
  { exists s0', []. split; [exact EI2|]. unfold io_initial. fold dd. change (s_ite s0') with 1%Z. cbn [Z.eqb]. change (c_out conf2) with "o"%string. rewrite ER. reflexivity. }
  split; [reflexivity|]. split; [now rewrite Hi|]. split; [exact SF|].
  cbn [ns_steps bind] in Hk. destruct (advance_inv _ _ _ _ _ _ _ _ _ Hk) as (rhs1 & sx & rhs2 & _ & _ & XB1 & _ & XU & _ & XB2 & _).
  assert (HBs0 : boundary_after m D cv_types values [OpICs (fun _ => 0)] (s_bc s0)) by (rewrite E0; exact HB0).
  pose proof (bc_call_inv m D cv_types values _ _ _ _ HF Hb HBs0 XB1) as HBx. pose proof (bc_call_inv m D cv_types values _ _ _ _ HF Hb HBx XB2) as HBs.
  destruct (pure_ghost m D cv_types values 1 1 q HF Hb ltac:(lia) ltac:(lia) ltac:(discriminate) Hg) as (r & p & Hrr & Ht & G).
  exists (gi_value (fold_left (pstep (bsb m D cv_types values r 1 1)) (([OpICs (fun _ => 0)] ++ [OpEqs (s_U s0) (p_dt P)]) ++ [OpVals (s_U s)]) p)),
         (gi_value (fold_left (pstep (bsb m D cv_types values r 1 1)) ([OpICs (fun _ => 0)] ++ [OpICs (s_U s')]) p)).
  split; [apply G; exact HBs|]. split; [apply G; exact HB'|].
  assert (U1 : s_U s (gi_tid p) = 1).
  { rewrite XU. unfold vaxpy, vs, ps. replace (mvec (n_pressure m) (o_BNG ops) (fun _ => 0) (gi_tid p)) with 0; [lra|].
    symmetry. unfold mvec, zsum. apply sumR_zero. intros. lra. }
  assert (U2 : s_U s' (gi_tid p) = 1) by (destruct SF as (_ & _ & HU & _); rewrite <- HU by exact Ht; exact U1).
  assert (U00 : s_U s0 = fun _ => 0) by (now rewrite E0). rewrite U00.
  cbn [fold_left app]. unfold pstep at 1 2 3 4 5. cbn [gi_tid set_value set_eq]. unfold setGhostICsKernel, updateEqsKernel.
  unfold bsb. change (cv_types 1 1) with CONVECTIVE. cbn [sb_type]. unfold kernelConvective. cbn [sb_loc sb_field sb_normal sb_value]. change (1 / 2 =? 1)%Z with false. cbv iota.
  unfold kernelConvectiveDiffDir, set_eq, set_value. cbn [gi_value gi_a0 gi_a1 gi_dL gi_tid]. rewrite U1, U2. unfold Rdiv. lra.
Qed.
Theorem restart_convective_refuted : exists m D P types values U0 p0 conv vs ps conf conf2 mon d s d1 tr ops s' f q v v',
  mesh_setup m D /\ bc_fits m types /\ conv_respects m D conv /\ vsolve_respects (n_velocity m) vs /\ psolve_respects (n_pressure m) ps /\
  ns_main 1 conf m D P types values 0 U0 p0 mon conv vs ps d = Ok (Some (s, d1, tr)) /\
  started conf2 m D P types values 0 U0 p0 d1 ops s' /\ c_out conf2 = c_out conf /\ c_nstart conf2 = s_ite s /\ same_fields m s s' /\
  ghost_value D (s_bc s) f q v /\ ghost_value D (s_bc s') f q v' /\ v <> v'.
Proof.
  assert (Hg : is_ghost (m_n (ex_mesh false false) 1) 1 (4, 0, 0)%Z).
  { split; [reflexivity|]. apply interior_pc. intros d Hd. assert (d = 0 \/ d = 1 \/ d = 2)%Z as [->|[->| ->]] by lia; cbv; split; congruence. }
  pose proof (convective_case (ex_mesh false false) (ex_dec false false) (ex_par false) (fun _ _ => 1) (fun _ => 0) (4, 0, 0)%Z (ex_setup false false) cv_fits ltac:(cbn; lia)
     ltac:(rewrite ex_dim; lia) Hg) as (conf & conf2 & s & d1 & tr & ops & s' & X1 & X2 & X3 & X4 & X5 & v & v' & X6 & X7 & X8).
  exists (ex_mesh false false), (ex_dec false false), (ex_par false), cv_types, (fun _ _ => 1), (fun _ => 0), (fun _ => 0).
  do 3 eexists. exists conf, conf2. eexists. eexists. exists s, d1, tr, ops, s', 1%Z, (4, 0, 0)%Z, v, v'.
  split; [apply ex_setup|]. split; [exact cv_fits|].
  split; [|split; [|split; [|split; [exact X1|repeat (split; [assumption|]); assumption]]]].
  - intros B B' x x' y _ Hx E. injection E as <-. eexists. split; [reflexivity|exact Hx].
  - intros g g' b b' _ _ i Hi. reflexivity.
  - intros g g' b b' _ i Hi. reflexivity.
Qed.
Print Assumptions restart_convective_refuted.

(** C57. The explicit history is stored in the order of the composite vector,
    which depends on the decomposition: reading it back on another number of
    ranks gives points the values of other points. *)
Theorem restart_other_ranks_refuted : exists m D1 D2 path d v w f x i1 i2, mesh_setup m D1 /\ mesh_setup m D2 /\
  load_history m (run_ops ([OpenNew path] ++ put_history m path "/convection" [v] ++ [Close path]) d) path "/convection" [fun _ => 0] = Ok [w] /\
  nthZ (packed_layout (m_dim m) D1) i1 = Some (f, x) /\ nthZ (packed_layout (m_dim m) D2) i2 = Some (f, x) /\ w i2 <> v i1.
Proof.
  exists (ex_mesh false false), (ex_dec false false), (default_dec (fun _ => 1%Z) (m_n (ex_mesh false false))), "f"%string, dsk0, (fun i => IZR i).
  eexists. exists 0%Z, (0, 1, 0)%Z, 2%Z, 3%Z. split; [apply ex_setup|]. split; [|split; [|split; [|split]]].
  - exists ex_mn, ex_mx, (ex_per false false), ex_w, (fun _ => 1%Z). rewrite !ex_dim. split; [exact ex_grid|]. split; [apply ex_create|]. split; [reflexivity|].
    split; [intros; lia|]. split; [reflexivity|]. reflexivity.
  - unfold load_history, load, put_history. change (n_velocity (ex_mesh false false)) with 17%Z. unfold packed_data. change (n_velocity (ex_mesh false false)) with 17%Z.
    cbn -[nthZ]. reflexivity.
  - reflexivity.
  - reflexivity.
  - cbv -[IZR]. intros E. apply eq_IZR in E. discriminate E.
Qed.
Print Assumptions restart_other_ranks_refuted.

(** The hypotheses are met: two runs of 3 + 2 steps on the periodic 4 x 3 mesh on
    two ranks, restart data every 3 steps, a crash after the fourth step. *)
Lemma restart_case_lemma m D U0 p0 : mesh_setup m D -> bc_fits m per_types ->
  let conv := fun (_ : boundary) (x : vec) => Ok x in let vs := fun (_ b : vec) => b in let ps := fun (_ b : vec) => b in
  exists conf1 conf2 s1 d1 tr1 sA dA trA s2 d2 tr2, 
  ns_main 3 conf1 m D (ex_par false) per_types (fun _ _ => 0) 0 U0 p0 (fun _ => []) conv vs ps dsk0 = Ok (Some (s1, d1, tr1)) /\ s_ite s1 = 3%Z /\
  ns_main 5 (mkConf "o" "l" 0 5 1 3) m D (ex_par false) per_types (fun _ _ => 0) 0 U0 p0 (fun _ => []) conv vs ps dsk0 = Ok (Some (sA, dA, trA)) /\
  ns_main 5 conf2 m D (ex_par false) per_types (fun _ _ => 0) 0 U0 p0 (fun _ => []) conv vs ps d1 = Ok (Some (s2, d2, tr2)) /\ s_ite s2 = 5%Z /\ same_fields m sA s2.
Proof.
  intros Hset Hb conv vs ps. set (conf1 := mkConf "o" "l" 0 3 1 3). set (confA := mkConf "o" "l" 0 5 1 3). set (conf2 := mkConf "o" "l" 3 2 1 3).
  assert (Hc : forall h B x, boundary_after m D per_types (fun _ _ => 0) ([OpICs U0] ++ h) B -> is_ok (conv B x)) by (intros; eexists; reflexivity).
  destruct (run_completes m D (ex_par false) per_types (fun _ _ => 0) 0 U0 p0 conv vs ps conf1 (fun _ => []) 3 dsk0 Hset Hb ltac:(cbn; lia) Hc) as (ops & si & s1 & d1 & tr1 & Hst & H1);
    try (cbn; lia); try reflexivity.
  destruct (run_completes m D (ex_par false) per_types (fun _ _ => 0) 0 U0 p0 conv vs ps confA (fun _ => []) 5 dsk0 Hset Hb ltac:(cbn; lia) Hc) as (opsA & siA & sA & dA & trA & HstA & HA);
    try (cbn; lia); try reflexivity.
  destruct (restart_equivalent m D (ex_par false) per_types (fun _ _ => 0) 0 U0 p0 conv vs ps (fun _ => []) (fun _ => []) (fun _ => []) confA conf1 conf2 5 3 5 dsk0 sA dA trA s1 d1 tr1 3 2
    Hset Hb) as (s2 & d2 & tr2 & H2 & SF); try reflexivity; try assumption; try (cbn; lia).
  - intros f loc _ _. discriminate.
  - intros B B' x x' y _ Hx E. injection E as <-. eexists. split; [reflexivity|exact Hx].
  - intros g g' b b' _ Hb'. exact Hb'.
  - intros g g' b b' Hb'. exact Hb'.
  - intros ? ? ? [].
  - left. exists 3%Z. reflexivity.
  - exists conf1, conf2, s1, d1, tr1, sA, dA, trA, s2, d2, tr2. split; [exact H1|].
    destruct (run_length _ _ _ _ _ _ _ _ _ _ _ _ _ _ _ _ _ _ _ _ Hst H1) as (_ & _ & Hi & _). destruct (run_length _ _ _ _ _ _ _ _ _ _ _ _ _ _ _ _ _ _ _ _ HstA HA) as (_ & _ & HiA & _).
    split; [exact Hi|]. split; [exact HA|]. split; [exact H2|]. split; [|exact SF]. destruct SF as (_ & E & _). rewrite <- E. exact HiA.
Qed.
Example restart_case : forall U0 p0, let m := ex_mesh true true in let D := ex_dec true true in
  let conv := fun (_ : boundary) (x : vec) => Ok x in let vs := fun (_ b : vec) => b in let ps := fun (_ b : vec) => b in
  exists conf1 conf2 s1 d1 tr1 sA dA trA s2 d2 tr2, 
  ns_main 3 conf1 m D (ex_par false) per_types (fun _ _ => 0) 0 U0 p0 (fun _ => []) conv vs ps dsk0 = Ok (Some (s1, d1, tr1)) /\ s_ite s1 = 3%Z /\
  ns_main 5 (mkConf "o" "l" 0 5 1 3) m D (ex_par false) per_types (fun _ _ => 0) 0 U0 p0 (fun _ => []) conv vs ps dsk0 = Ok (Some (sA, dA, trA)) /\
  ns_main 5 conf2 m D (ex_par false) per_types (fun _ _ => 0) 0 U0 p0 (fun _ => []) conv vs ps d1 = Ok (Some (s2, d2, tr2)) /\ s_ite s2 = 5%Z /\ same_fields m sA s2.
Proof. intros U0 p0. apply restart_case_lemma; [apply ex_setup|apply ex_per_fits]. Qed.
