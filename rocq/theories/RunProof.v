From Coq Require Import ZifyBool String.
From Verif Require Import Prelude ZSum RSum TypesModel GridModel GridSpec GridProof MeshProof
  IndexModel IndexSpec IndexProof BoundaryModel BoundarySpec BoundaryProof OperatorModel OperatorSpec OperatorProof BStateProof LapProof AdjProof
  MatModel BnModel NSModel NSSpec NSProof NSTotal NameModel NameProof DriverModel DriverSpec DriverProof DriveProof RestartProof.
Local Open Scope R_scope.

(** * Open files *)
Definition open_from (b : bool) (ops : list fsop) (p : string) : bool :=
  fold_left (fun b o => if String.eqb (op_path o) p then match o with Close _ => false | _ => true end else b) ops b.
Lemma open_app b x y p : open_from b (x ++ y) p = open_from (open_from b x p) y p.
Proof. unfold open_from. apply fold_left_app. Qed.
Lemma open_other b l p : (forall o, In o l -> op_path o <> p) -> open_from b l p = b.
Proof.
  unfold open_from. revert b. induction l as [|o t IH]; intros b H; [reflexivity|]. cbn [fold_left].
  destruct (String.eqb_spec (op_path o) p) as [E|E]; [exfalso; apply (H o); [now left|exact E]|]. apply IH. intros; apply H. now right.
Qed.
Lemma open_close b l p : open_from b (l ++ [Close p]) p = false.
Proof. rewrite open_app. cbn. now rewrite String.eqb_refl. Qed.
Lemma write_solution_closed b m D path s : open_from b (write_solution m D path s) path = false.
Proof. unfold write_solution. replace [OpenApp path; PutTime path (s_t s); Close path] with ([OpenApp path; PutTime path (s_t s)] ++ [Close path]) by reflexivity. rewrite app_assoc. apply open_close. Qed.
Lemma write_restart_closed b m D path s d : open_from b (write_restart m D path s d) path = false.
Proof. unfold write_restart. rewrite !app_assoc. apply open_close. Qed.
Lemma write_step_closed conf m D mon s d o : probes_elsewhere (c_out conf) mon -> write_step conf m D mon s d = Ok o ->
  open_from false o (solution_path (c_out conf) (s_ite s)) = false.
Proof.
  intros Hm H. destruct (write_step_inv _ _ _ _ _ _ _ H) as (_ & _ & ->). cbv zeta. set (path := solution_path (c_out conf) (s_ite s)).
  rewrite !open_app. rewrite (open_other _ (mon s)) by (intros x Hx; exact (Hm s x _ Hx)).
  rewrite (open_other _ [PutText _ _]) by (intros x [<-|[]]; apply iterations_not_solution).
  assert (X : open_from false (if (Z.rem (s_ite s) (c_nsave conf) =? 0)%Z
     then write_solution m D path s ++ [OpenNew (log_path (c_logs conf) (s_ite s)); Close (log_path (c_logs conf) (s_ite s))] else []) path = false).
  { destruct (Z.rem (s_ite s) (c_nsave conf) =? 0)%Z; [|reflexivity]. rewrite open_app, write_solution_closed. apply open_other. intros x [<-|[<-|[]]]; apply log_not_solution. }
  rewrite X. destruct (Z.rem (s_ite s) (c_nrestart conf) =? 0)%Z; [|reflexivity]. apply write_restart_closed.
Qed.

Section Run.
Variables (m : mesh) (D : dec) (P : nspar) (types : Z -> Z -> bctype) (values : Z -> Z -> R) (t0 : R) (U0 p0 : vec).
Variables (conv : boundary -> vec -> res vec) (vs ps : vec -> vec -> vec).
Variables (conf : ioconf) (mon : nsstate -> list fsop) (fuel : nat) (d : disk) (s2 : nsstate) (d2 : disk) (tr : list (Z * list fsop)).
Variables (ops : nsops) (s1 : nsstate).
Hypotheses (Hset : mesh_setup m D) (Hb : bc_fits m types).
Hypotheses (Hst : started conf m D P types values t0 U0 p0 d ops s1).
Hypotheses (Hmain : ns_main fuel conf m D P types values t0 U0 p0 mon conv vs ps d = Ok (Some (s2, d2, tr))).
Hypotheses (Hpr : probes_elsewhere (c_out conf) mon) (Hn0 : (0 <= c_nstart conf)%Z).
Let F := setup_facts _ _ Hset.
Let out := c_out conf. Let N := c_nstart conf.
Let path k := solution_path out k.

Lemma main_parts : exists s0 w tr', ns_init m D P types values t0 N U0 p0 = Ok (ops, s0) /\
    io_initial conf m D s0 (run_ops (init_ops m conf) d) = Ok (s1, w) /\
    drive fuel conf m D mon (advance m D P ops conv vs ps) s1 (run_ops w (run_ops (init_ops m conf) d)) = Ok (Some (s2, d2, tr')) /\ tr = (N, w) :: tr' /\
    s_ite s1 = N /\ s_ite s0 = N /\ (N = 0%Z -> s1 = s0 /\ w = write_solution m D (path 0) s0) /\ (N <> 0%Z -> w = []).
Proof.
  destruct (main_inv _ _ _ _ _ _ _ _ _ _ _ _ _ _ _ _ _ _ Hmain) as (ops' & s0 & s1' & w & tr' & E1 & E2 & E3 & E4 & E5 & E6 & E7).
  destruct Hst as (s0' & w' & X1 & X2). rewrite E1 in X1. injection X1 as <- <-. rewrite E2 in X2. injection X2 as <- <-.
  exists s0, w, tr'. destruct (ns_init_step _ _ _ _ _ _ _ N _ _ _ _ E1) as [Hi _]. repeat (split; [assumption|]). exact E7.
Qed.
Lemma run_length_lemma : s_ite s1 = N /\ ns_steps m D P ops conv vs ps (Z.to_nat (c_nt conf)) s1 = Ok s2 /\
  s_ite s2 = (N + Z.max 0 (c_nt conf))%Z /\ s_t s2 = s_t s1 + INR (Z.to_nat (c_nt conf)) * p_dt P /\
  map fst tr = zrange N (N + Z.max 0 (c_nt conf) + 1) /\ d2 = run_ops (init_ops m conf ++ trace_ops tr) d.
Proof.
  destruct main_parts as (s0 & w & tr' & E1 & E2 & E3 & E4 & E5 & E6 & _).
  destruct (drive_inv _ _ _ _ _ _ _ _ _ _ _ _ _ _ _ E3) as (A1 & A2 & A3).
  assert (T : todo conf s1 = Z.to_nat (c_nt conf)) by (unfold todo; rewrite E5; unfold N; f_equal; lia). rewrite T in A1, A2.
  destruct (steps_ite _ _ _ _ _ _ _ _ _ _ A1) as [I1 I2].
  split; [exact E5|]. split; [exact A1|]. split; [rewrite I1, E5; lia|]. split; [exact I2|]. split.
  - rewrite E4. cbn [map fst]. rewrite A2, E5. rewrite (zrange_cons N) by lia. f_equal. f_equal. lia.
  - rewrite E4. unfold trace_ops. cbn [flat_map snd]. rewrite !run_app. exact A3.
Qed.

Lemma before_start k s0 w : ns_init m D P types values t0 N U0 p0 = Ok (ops, s0) -> io_initial conf m D s0 (run_ops (init_ops m conf) d) = Ok (s1, w) -> s_ite s0 = N ->
  (0 <= k)%Z -> (k <> 0 \/ N <> 0)%Z -> run_ops w (run_ops (init_ops m conf) d) (path k) = d (path k).
Proof.
  intros E1 E2 Hi Hk Ho. unfold path, out. rewrite (start_other m D conf s0 _ s1 w k Hi E2 Hk Hn0 Ho). now apply init_ops_other.
Qed.
Lemma run_files_lemma : c_nsave conf <> 0%Z -> c_nrestart conf <> 0%Z ->
  (forall k sk, (1 <= k <= Z.to_nat (c_nt conf))%nat -> ns_steps m D P ops conv vs ps k s1 = Ok sk ->
     let n := (N + Z.of_nat k)%Z in
     ((c_nsave conf | n)%Z \/ (c_nrestart conf | n)%Z /\ d (path n) = None ->
        exists F, d2 (path n) = Some F /\ holds_solution m D sk F /\ ((c_nrestart conf | n)%Z -> holds_history m sk F)) /\
     (~ (c_nsave conf | n)%Z -> (c_nrestart conf | n)%Z -> forall F0, d (path n) = Some F0 ->
        exists F, d2 (path n) = Some F /\ holds_history m sk F /\ f_time F = f_time F0 /\ forall nm, ~ is_history nm -> f_sets F nm = f_sets F0 nm) /\
     (~ (c_nsave conf | n)%Z -> ~ (c_nrestart conf | n)%Z -> d2 (path n) = d (path n))) /\
  (forall n, (0 <= n)%Z -> ~ (N < n <= N + Z.max 0 (c_nt conf))%Z -> (n <> 0 \/ N <> 0)%Z -> d2 (path n) = d (path n)) /\
  (N = 0%Z -> exists F, d2 (path 0) = Some F /\ holds_solution m D s1 F).
Proof.
  intros Hsv Hrs. destruct main_parts as (s0 & w & tr' & E1 & E2 & E3 & E4 & E5 & E6 & E7 & E8).
  destruct (drive_files m D P ops conv vs ps conf mon _ _ _ _ _ _ F E3 Hpr ltac:(lia)) as [A B].
  assert (T : todo conf s1 = Z.to_nat (c_nt conf)) by (unfold todo; rewrite E5; unfold N; f_equal; lia).
  assert (Hdiv : forall a n, a <> 0%Z -> ~ (a | n)%Z -> divides a n = false) by (intros a n Ha Hn; destruct (divides a n) eqn:E; [|reflexivity]; apply divides_spec in E; auto; contradiction).
  split; [|split].
  - intros k sk Hk Ek n. specialize (A k sk ltac:(lia) Ek). cbv zeta in A. rewrite E5 in A. fold n in A. fold out in A.
    change (solution_path out n) with (path n) in A. rewrite (before_start n s0 w E1 E2 E6 ltac:(lia) ltac:(lia)) in A. destruct A as (A1 & A2 & A3). split; [|split].
    + intros Hc. destruct A1 as (Fl & X1 & X2 & X3). { destruct Hc as [Hc|[Hc Hd]]; [left|right; split; auto]; now apply divides_spec. }
      exists Fl. split; [exact X1|]. split; [exact X2|]. intros Hr. apply X3. now apply divides_spec.
    + intros Hs Hr F0 EF. apply A2; auto. now apply divides_spec.
    + intros Hs Hr. apply A3; auto.
  - intros n Hn Hno Ho. fold out in B. specialize (B n Hn ltac:(lia)). change (solution_path out n) with (path n) in B. rewrite B. now apply (before_start n s0 w).
  - intros H0. destruct (E7 H0) as [-> ->]. fold out in B. specialize (B 0%Z ltac:(lia) ltac:(lia)). change (solution_path out 0) with (path 0) in B. rewrite B. now apply write_solution_file.
Qed.

(** * Crashes *)
Lemma app_prefix {A} (a b c e : list A) : a ++ b = c ++ e -> (length a <= length c)%nat -> exists x, c = a ++ x /\ b = x ++ e.
Proof.
  revert c. induction a as [|x t IH]; intros c H Hl; [exists c; auto|]. destruct c as [|y u]; [cbn in Hl; lia|]. injection H as -> H.
  destruct (IH u H ltac:(cbn in Hl; lia)) as (z & -> & ->). exists z. auto.
Qed.
Lemma path_untouched_init n : (0 <= n)%Z -> forall o, In o (init_ops m conf) -> op_path o <> path n.
Proof.
  intros Hn o Ho. destruct (init_ops_paths _ _ _ Ho) as [-> | ->]; [now apply grid_not_solution|apply iterations_not_solution].
Qed.
Lemma start_paths w s0 n o : ns_init m D P types values t0 N U0 p0 = Ok (ops, s0) -> io_initial conf m D s0 (run_ops (init_ops m conf) d) = Ok (s1, w) -> s_ite s0 = N ->
  (0 <= n)%Z -> (n <> 0 \/ N <> 0)%Z -> In o w -> op_path o <> path n.
Proof.
  intros E1 E2 Hi Hn Ho Hin Hp. unfold io_initial in E2. rewrite Hi in E2. destruct (Z.eqb_spec N 0) as [E0|E0].
  - injection E2 as <- <-. rewrite (write_solution_paths _ _ _ _ _ Hin) in Hp. apply solution_path_inj in Hp; lia.
  - apply bind_ok_inv in E2. destruct E2 as (s' & _ & E2). injection E2 as <- <-. destruct Hin.
Qed.

Lemma crash_untouched_lemma done rest d' n : init_ops m conf ++ trace_ops tr = done ++ rest -> crash_at done rest d d' ->
  (0 <= n)%Z -> ~ (N < n <= N + Z.max 0 (c_nt conf))%Z -> (n <> 0 \/ N <> 0)%Z -> d' (path n) = d (path n).
Proof.
  intros E C Hn Hno Ho. destruct main_parts as (s0 & w & tr' & E1 & E2 & E3 & E4 & E5 & E6 & _).
  destruct run_length_lemma as (_ & _ & _ & _ & Hf & _).
  assert (U : forall o, In o (done ++ rest) -> op_path o <> path n).
  { intros o Hin. rewrite <- E in Hin. apply in_app_iff in Hin. destruct Hin as [Hin|Hin]; [now apply path_untouched_init|].
    rewrite E4 in Hin. unfold trace_ops in Hin. cbn [flat_map snd] in Hin. apply in_app_iff in Hin. destruct Hin as [Hin|Hin]; [now apply (start_paths w s0)|].
    apply in_flat_map in Hin. destruct Hin as ([k l] & Hk & Hin). intros Hp.
    pose proof (trace_paths _ _ _ _ _ _ _ _ _ _ _ _ _ _ _ E3 Hpr ltac:(lia) k l o n Hk Hin Hn Hp) as ->.
    apply Hno. destruct (drive_inv _ _ _ _ _ _ _ _ _ _ _ _ _ _ _ E3) as (_ & A2 & _). apply (in_map fst) in Hk. rewrite A2 in Hk. apply zrange_In in Hk. cbn [fst] in Hk.
    unfold todo in Hk. rewrite E5 in Hk. fold N in Hk. lia. }
  rewrite C.
  - apply run_other. intros o Hin. apply U. apply in_app_iff. now left.
  - change (is_open done (path n)) with (open_from false done (path n)). apply open_other. intros o Hin. apply U. apply in_app_iff. now left.
  - destruct rest as [|o t]; [exact I|]. apply U. apply in_app_iff. right. now left.
Qed.

Lemma crash_lemma done rest d' tr1 n o tr2 k sk : init_ops m conf ++ trace_ops tr = done ++ rest -> crash_at done rest d d' ->
  tr = tr1 ++ (n, o) :: tr2 -> (length (init_ops m conf ++ trace_ops (tr1 ++ [(n, o)])) <= length done)%nat ->
  n = (N + Z.of_nat k)%Z -> (1 <= k)%nat -> ns_steps m D P ops conv vs ps k s1 = Ok sk ->
  ((c_nsave conf | n)%Z \/ (c_nrestart conf | n)%Z /\ d (path n) = None) ->
  exists Fl, d' (path n) = Some Fl /\ holds_solution m D sk Fl /\ ((c_nrestart conf | n)%Z -> holds_history m sk Fl).
Proof.
  intros E C Et Hl Hk Hk1 Ek Hc. destruct main_parts as (s0 & w & tr' & E1 & E2 & E3 & E4 & E5 & E6 & _).
  destruct tr1 as [|[k0 o0] tr1]. { rewrite E4 in Et. injection Et as Et _ _. exfalso. lia. }
  rewrite E4 in Et. injection Et as <- <- Et.
  set (d0 := run_ops w (run_ops (init_ops m conf) d)) in *.
  destruct (drive_split _ _ _ _ _ _ _ _ _ _ _ _ _ _ _ E3 _ _ _ _ Et) as (sj & Ej & En & Ew).
  destruct (steps_ite _ _ _ _ _ _ _ _ _ _ Ej) as [Ij _]. assert (Hlen : S (length tr1) = k) by lia. rewrite Hlen in Ej. rewrite Ek in Ej. injection Ej as <-.
  assert (Etr : trace_ops tr = trace_ops (((N, w) :: tr1) ++ [(n, o)]) ++ trace_ops tr2).
  { rewrite E4, Et. unfold trace_ops. rewrite <- flat_map_app, <- app_assoc. reflexivity. }
  rewrite Etr, app_assoc in E. destruct (app_prefix _ _ _ _ E Hl) as (part & Ed & Ep).
  assert (U : forall x, In x (trace_ops tr2) -> op_path x <> path n).
  { intros x Hx Hp. unfold trace_ops in Hx. apply in_flat_map in Hx. destruct Hx as ([k' o'] & Hin & Hx). cbn [snd] in Hx.
    assert (Hin' : In (k', o') tr') by (rewrite Et; apply in_app_iff; right; now right).
    pose proof (trace_paths _ _ _ _ _ _ _ _ _ _ _ _ _ _ _ E3 Hpr ltac:(lia) k' o' x n Hin' Hx ltac:(lia) Hp) as E'.
    apply (trace_mid _ _ _ _ _ _ _ _ _ _ _ _ _ _ _ _ _ _ _ (k', o') E3 Et (or_intror Hin)). now rewrite E'. }
  assert (U0' : forall x, In x (init_ops m conf ++ w) -> op_path x <> path n).
  { intros x Hx. apply in_app_iff in Hx. destruct Hx as [Hx|Hx]; [apply path_untouched_init; auto; lia|apply (start_paths w s0); auto; lia]. }
  assert (U1 : forall x, In x (trace_ops tr1) -> op_path x <> path n).
  { intros x Hx Hp. unfold trace_ops in Hx. apply in_flat_map in Hx. destruct Hx as ([k' o'] & Hin & Hx). cbn [snd] in Hx.
    assert (Hin' : In (k', o') tr') by (rewrite Et; apply in_app_iff; now left).
    pose proof (trace_paths _ _ _ _ _ _ _ _ _ _ _ _ _ _ _ E3 Hpr ltac:(lia) k' o' x n Hin' Hx ltac:(lia) Hp) as E'.
    apply (trace_mid _ _ _ _ _ _ _ _ _ _ _ _ _ _ _ _ _ _ _ (k', o') E3 Et (or_introl Hin)). now rewrite E'. }
  assert (Edone : done = (init_ops m conf ++ w) ++ trace_ops tr1 ++ o ++ part).
  { rewrite Ed. unfold trace_ops. cbn [flat_map snd app]. rewrite flat_map_app. cbn [flat_map snd]. rewrite app_nil_r, <- !app_assoc. reflexivity. }
  assert (Hpart : forall x, In x part -> op_path x <> path n) by (intros x Hx; apply U; rewrite Ep; apply in_app_iff; now left).
  rewrite C.
  - rewrite Edone, !run_app. rewrite (run_other part) by exact Hpart. fold d0.
    pose proof (write_step_file conf m D mon sk _ o F Hpr Ew) as W. cbv zeta in W. rewrite <- En in W. fold out in W. change (solution_path out n) with (path n) in W.
    rewrite (run_other (trace_ops tr1) d0) in W by exact U1. unfold d0 in W at 1. rewrite (before_start n s0 w E1 E2 E6 ltac:(lia) ltac:(lia)) in W.
    destruct (write_step_inv _ _ _ _ _ _ _ Ew) as (Hsv & Hrs & _).
    destruct (proj1 W) as (Fl & X1 & X2 & X3). { destruct Hc as [Hc|[Hc Hd]]; [left|right; split; auto]; now apply divides_spec. }
    exists Fl. split; [exact X1|]. split; [exact X2|]. intros Hr. apply X3. now apply divides_spec.
  - change (is_open done (path n)) with (open_from false done (path n)). rewrite Edone, !open_app.
    rewrite (open_other _ part) by exact Hpart. rewrite (open_other _ (trace_ops tr1)) by exact U1.
    rewrite (open_other _ w) by (intros x Hx; apply U0'; apply in_app_iff; now right). rewrite (open_other _ (init_ops m conf)) by (intros x Hx; apply U0'; apply in_app_iff; now left).
    unfold path, out. rewrite En. eapply write_step_closed; [exact Hpr|exact Ew].
  - destruct rest as [|x t]; [exact I|]. apply U. rewrite Ep. apply in_app_iff. right. now left.
Qed.

(** * Restarts *)
Variables (conf2 : ioconf) (fuel2 : nat) (mon2 : nsstate -> list fsop) (d' : disk) (k j : nat).
Hypotheses (Hnc : no_convective m types) (Hcv : conv_respects m D conv) (Hvs : vsolve_respects (n_velocity m) vs) (Hps : psolve_respects (n_pressure m) ps).
Lemma restart_lemma sk sA Fl : ns_steps m D P ops conv vs ps k s1 = Ok sk -> ns_steps m D P ops conv vs ps (k + j) s1 = Ok sA ->
  (0 < N + Z.of_nat k)%Z -> c_nstart conf2 = (N + Z.of_nat k)%Z -> c_nt conf2 = Z.of_nat j -> c_nsave conf2 <> 0%Z -> c_nrestart conf2 <> 0%Z -> (j <= fuel2)%nat ->
  c_out conf2 = out -> d' (path (N + Z.of_nat k)) = Some Fl -> holds_solution m D sk Fl -> holds_history m sk Fl ->
  exists sB dB trB, ns_main fuel2 conf2 m D P types values t0 U0 p0 mon2 conv vs ps d' = Ok (Some (sB, dB, trB)) /\ same_fields m sA sB.
Proof.
  intros Ek EA Hp Hs2 Hnt Hsv Hrs Hfu Ho EF HS HH. destruct main_parts as (s0 & w & tr' & E1 & E2 & E3 & E4 & E5 & E6 & _).
  destruct (start_fresh m D P types values t0 U0 p0 F Hb conf ops s0 _ s1 w E1 E2) as (Hf & Lc & Ld). destruct (steps_ite _ _ _ _ _ _ _ _ _ _ Ek) as [Ik _].
  assert (Eik : s_ite sk = (N + Z.of_nat k)%Z) by lia.
  eapply (restart_from_file m D P types values t0 U0 p0 conv vs ps F Hb ops s0 s1 k sk j sA conf2 fuel2 mon2 d' Fl Hnc Hcv Hvs Hps N E1 Hf Lc Ld Ek EA);
    rewrite ?Eik; auto. rewrite Ho. exact EF.
Qed.
End Run.

(** A fresh run completes. *)
Lemma run_completes_lemma m D P types values t0 U0 p0 conv vs ps conf mon fuel d : mesh_setup m D -> bc_fits m types -> (1 <= p_bn P)%Z ->
  (forall h B x, boundary_after m D types values ([OpICs U0] ++ h) B -> is_ok (conv B x)) ->
  c_nstart conf = 0%Z -> c_nsave conf <> 0%Z -> c_nrestart conf <> 0%Z -> (c_nt conf <= Z.of_nat fuel)%Z ->
  exists ops s1 s2 d2 tr, started conf m D P types values t0 U0 p0 d ops s1 /\
    ns_main fuel conf m D P types values t0 U0 p0 mon conv vs ps d = Ok (Some (s2, d2, tr)).
Proof.
  intros Hset Hb Hn Hc H0 Hs Hr Hf. pose proof (setup_facts _ _ Hset) as F.
  destruct (init_total m D P types values t0 (c_nstart conf) U0 p0 F Hb Hn) as (ops & s0 & HI).
  destruct (ns_init_step _ _ _ _ _ _ _ (c_nstart conf) _ _ _ _ HI) as [Hi _].
  assert (EIO : io_initial conf m D s0 (run_ops (init_ops m conf) d) = Ok (s0, write_solution m D (solution_path (c_out conf) (s_ite s0)) s0)).
  { unfold io_initial. rewrite Hi, H0. reflexivity. }
  destruct (drive_total m D P ops conv vs ps conf mon fuel s0 (run_ops (write_solution m D (solution_path (c_out conf) (s_ite s0)) s0) (run_ops (init_ops m conf) d))) as (s2 & d2 & tr & ED);
    [unfold todo; lia|auto|auto|eapply steps_total; eauto|].
  exists ops, s0. eexists. eexists. eexists. split; [exists s0; eexists; split; [exact HI|exact EIO]|].
  unfold ns_main. rewrite HI. cbn [bind]. cbv zeta. rewrite EIO. cbn [bind]. rewrite ED. cbn [bind]. reflexivity.
Qed.
