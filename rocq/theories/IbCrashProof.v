(** Crashes of the immersed-boundary programs. *)
From Coq Require Import ZifyBool String.
From Verif Require Import Prelude ZSum RSum TypesModel GridModel GridSpec GridProof MeshProof
  IndexModel IndexSpec IndexProof BoundaryModel BoundarySpec BoundaryProof OperatorModel OperatorSpec OperatorProof BStateProof LapProof AdjProof
  MatModel BnModel NSModel NSSpec NSProof NSTotal NameModel NameProof DriverModel DriverSpec DriverProof DriveProof RestartProof RunProof
  BodyModel BodySpec DeltaModel DeltaSpec IbpmModel IbpmSpec IbOutModel IbOutDrive IbOutSpec IbOutProof IbOutDec IbCrashModel.
Local Open Scope R_scope.

(** The configuration with another number of steps. *)
Definition for_steps (conf : ioconf) (k : nat) : ioconf := mkConf (c_out conf) (c_logs conf) (c_nstart conf) (Z.of_nat k) (c_nsave conf) (c_nrestart conf).

Lemma longer_prefix {A} (a b c e : list A) : a ++ b = c ++ e -> (length a <= length c)%nat -> exists x, c = a ++ x /\ b = x ++ e.
Proof.
  revert c. induction a as [|x t IH]; intros c H Hl; [exists c; auto|]. destruct c as [|y u]; [cbn in Hl; lia|]. injection H as -> H.
  destruct (IH u H ltac:(cbn in Hl; lia)) as (z & -> & ->). exists z. auto.
Qed.

Section Loop.
Context {St : Type}.
Variables (ite : St -> Z) (wsol : string -> St -> list fsop) (wres : string -> St -> disk -> list fsop) (line : St -> res (list R)) (step : St -> res St).
Hypothesis (Hite : forall s s', step s = Ok s' -> ite s' = (ite s + 1)%Z).
Hypothesis (Hws : forall p s o, In o (wsol p s) -> op_path o = p).
Hypothesis (Hwr : forall p s d o, In o (wres p s d) -> op_path o = p).
Hypothesis (Cws : forall b p s, open_from b (wsol p s) p = false).
Hypothesis (Cwr : forall b p s d, open_from b (wres p s d) p = false).
Variables (conf : ioconf) (mon : St -> list fsop).
Hypothesis (Hm : forall s o n, In o (mon s) -> op_path o <> solution_path (c_out conf) n).
Notation W := (write_all ite wsol wres line conf mon).

Lemma write_all_inv s d o l : W s d = Ok (o, l) -> write_step_with ite wsol wres conf mon s d = Ok o /\ line s = Ok l.
Proof.
  unfold write_all. intros H. apply bind_ok_inv in H. destruct H as (o' & E & H). apply bind_ok_inv in H. destruct H as (l' & E' & H). injection H as -> ->. auto.
Qed.
Lemma write_with_closed s d o : write_step_with ite wsol wres conf mon s d = Ok o -> open_from false o (solution_path (c_out conf) (ite s)) = false.
Proof.
  intros H. destruct (write_with_inv _ _ _ _ _ _ _ _ H) as (_ & _ & ->). cbv zeta. rewrite !open_app.
  rewrite (open_other _ (mon s)) by (intros x Hx; exact (Hm s x _ Hx)).
  rewrite (open_other _ [PutText _ _]) by (intros x [<-|[]]; apply iterations_not_solution).
  assert (X : open_from false (if (Z.rem (ite s) (c_nsave conf) =? 0)%Z
     then wsol (solution_path (c_out conf) (ite s)) s ++ [OpenNew (log_path (c_logs conf) (ite s)); Close (log_path (c_logs conf) (ite s))] else []) (solution_path (c_out conf) (ite s)) = false).
  { destruct (Z.rem (ite s) (c_nsave conf) =? 0)%Z; [|reflexivity]. rewrite open_app, Cws. apply open_other. intros x [<-|[<-|[]]]; apply log_not_solution. }
  rewrite X. destruct (Z.rem (ite s) (c_nrestart conf) =? 0)%Z; [apply Cwr|reflexivity].
Qed.

(** What the loop leaves is what its operations make of the disk. *)
Lemma f_ops_disk fuel s d s2 d2 ls : f_drive fuel ite conf step W s d = Ok (Some (s2, d2, ls)) -> d2 = run_ops (trace_ops (f_ops fuel ite conf step W s d)) d.
Proof.
  revert s d ls. induction fuel as [|f IH]; intros s d ls H; cbn [f_drive f_ops] in *.
  - destruct (_ >=? _)%Z; [|discriminate]. injection H as <- <- <-. reflexivity.
  - destruct (_ >=? _)%Z; [injection H as <- <- <-; reflexivity|].
    apply bind_ok_inv in H. destruct H as (s' & -> & H). apply bind_ok_inv in H. destruct H as ([o l] & -> & H). apply bind_ok_inv in H. destruct H as (r & Er & H).
    destruct r as [[[s3 d3] ls']|]; [|discriminate]. injection H as <- <- <-. unfold trace_ops. cbn [flat_map snd]. rewrite run_app. exact (IH _ _ _ Er).
Qed.
(** Operations on solution files are of the step of that file, and every step
    occurs once. *)
Lemma f_ops_steps fuel s d s2 d2 ls : f_drive fuel ite conf step W s d = Ok (Some (s2, d2, ls)) ->
  map fst (f_ops fuel ite conf step W s d) = zrange (ite s + 1) (ite s + Z.of_nat (nleft ite conf s) + 1).
Proof.
  revert s d s2 d2 ls. induction fuel as [|f IH]; intros s d s2 d2 ls H; cbn [f_drive f_ops] in *.
  - destruct (_ >=? _)%Z eqn:E; [|discriminate]. replace (nleft ite conf s) with 0%nat by (unfold nleft; lia). rewrite Z.add_0_r, zrange_nil by lia. reflexivity.
  - destruct (_ >=? _)%Z eqn:E; [replace (nleft ite conf s) with 0%nat by (unfold nleft; lia); rewrite Z.add_0_r, zrange_nil by lia; reflexivity|].
    apply bind_ok_inv in H. destruct H as (s' & Es & H). rewrite Es. apply bind_ok_inv in H. destruct H as ([o l] & -> & H). apply bind_ok_inv in H. destruct H as (r & Er & H).
    destruct r as [[[s3 d3] ls']|]; [|discriminate]. cbn [map fst]. rewrite (IH _ _ _ _ _ Er). pose proof (Hite _ _ Es) as Hi. rewrite Hi.
    assert (L : nleft ite conf s = Datatypes.S (nleft ite conf s')) by (unfold nleft; rewrite Hi; lia). rewrite L.
    rewrite (zrange_cons (ite s + 1)) by lia. f_equal. f_equal. lia.
Qed.
Lemma f_ops_paths fuel s d k o x n : (0 <= ite s)%Z -> (0 <= n)%Z -> In (k, o) (f_ops fuel ite conf step W s d) -> In x o -> op_path x = solution_path (c_out conf) n -> n = k.
Proof.
  revert s d. induction fuel as [|f IH]; intros s d Hs Hn H Hx Hp; cbn [f_ops] in H.
  - destruct (_ >=? _)%Z; destruct H.
  - destruct (_ >=? _)%Z; [destruct H|]. destruct (step s) as [s'| |] eqn:Es; try (destruct H; fail). destruct (W s' d) as [[o' l]| |] eqn:Ew; try (destruct H; fail).
    pose proof (Hite _ _ Es) as Hi. destruct H as [H|H].
    + injection H as <- <-. destruct (write_all_inv _ _ _ _ Ew) as [Eo _]. exact (write_with_paths ite wsol wres Hws Hwr conf mon s' d o' x n Hm ltac:(lia) Hn Eo Hx Hp).
    + apply (IH s' (run_ops o' d)); auto. lia.
Qed.
(** The run that stops after the step of a given element. *)
Lemma f_ops_prefix K fuel s d s2 d2 ls tr1 n o tr2 : f_drive fuel ite conf step W s d = Ok (Some (s2, d2, ls)) ->
  f_ops fuel ite conf step W s d = tr1 ++ (n, o) :: tr2 -> (c_nstart conf + Z.of_nat K)%Z = (ite s + Z.of_nat (Datatypes.S (length tr1)))%Z ->
  exists sk ls1, f_drive fuel ite (for_steps conf K) step (write_all ite wsol wres line (for_steps conf K) mon) s d = Ok (Some (sk, run_ops (trace_ops (tr1 ++ [(n, o)])) d, ls1)) /\
    n = ite sk /\ n = (ite s + Z.of_nat (Datatypes.S (length tr1)))%Z /\ open_from false o (solution_path (c_out conf) n) = false.
Proof.
  revert s d ls tr1. induction fuel as [|f IH]; intros s d ls tr1 H E HK; cbn [f_drive f_ops] in *.
  - destruct (_ >=? _)%Z; destruct tr1; discriminate.
  - destruct (ite s >=? c_nstart conf + c_nt conf)%Z; [destruct tr1; discriminate|].
    assert (X : (ite s >=? c_nstart (for_steps conf K) + c_nt (for_steps conf K))%Z = false) by (cbn [for_steps c_nstart c_nt]; lia). rewrite X.
    apply bind_ok_inv in H. destruct H as (s' & Es & H). rewrite Es in *. apply bind_ok_inv in H. destruct H as ([o' l] & Ew & H). rewrite Ew in E.
    apply bind_ok_inv in H. destruct H as (r & Er & H). destruct r as [[[s3 d3] ls']|]; [|discriminate]. injection H as <- <- <-. pose proof (Hite _ _ Es) as Hi.
    cbn [bind]. change (write_all ite wsol wres line (for_steps conf K) mon) with W. rewrite Ew. cbn [bind]. destruct tr1 as [|[n1 o1] tr1].
    + injection E as <- <- E. exists s', [l]. assert (Y : (ite s' >=? c_nstart (for_steps conf K) + c_nt (for_steps conf K))%Z = true) by (cbn [for_steps c_nstart c_nt] in *; cbn [length] in HK; lia).
      split; [|split; [reflexivity|split; [cbn [length]; lia|apply (write_with_closed s' d); apply (write_all_inv _ _ _ _ Ew)]]].
      unfold trace_ops. cbn [flat_map snd Datatypes.app]. rewrite app_nil_r. destruct f; cbn [f_drive]; rewrite Y; reflexivity.
    + injection E as <- <- E. destruct (IH s' _ _ tr1 Er E) as (sk & ls1 & E1 & E2 & E3 & E4); [cbn [length] in HK; lia|]. exists sk, (l :: ls1).
      change (write_all ite wsol wres line (for_steps conf K) mon) with W in E1. rewrite E1. cbn [bind]. split; [|split; [exact E2|split; [cbn [length]; lia|exact E4]]].
      unfold trace_ops. cbn [flat_map snd Datatypes.app]. rewrite run_app. reflexivity.
Qed.
(** States and lines of a run do not depend on the disk. *)
Lemma f_drive_local fuel s d d' s2 d2 ls : f_drive fuel ite conf step W s d = Ok (Some (s2, d2, ls)) -> exists d2', f_drive fuel ite conf step W s d' = Ok (Some (s2, d2', ls)).
Proof.
  revert s d d' ls. induction fuel as [|f IH]; intros s d d' ls H; cbn [f_drive] in *.
  - destruct (_ >=? _)%Z; [|discriminate]. injection H as <- <- <-. eauto.
  - destruct (_ >=? _)%Z; [injection H as <- <- <-; eauto|].
    apply bind_ok_inv in H. destruct H as (s' & -> & H). apply bind_ok_inv in H. destruct H as ([o l] & Ew & H). apply bind_ok_inv in H. destruct H as (r & Er & H).
    destruct r as [[[s3 d3] ls']|]; [|discriminate]. injection H as <- <- <-. destruct (write_all_inv _ _ _ _ Ew) as [Eo El]. destruct (write_with_inv _ _ _ _ _ _ _ _ Eo) as (N1 & N2 & _).
    destruct (write_with_total ite wsol wres conf mon s' d' N1 N2) as [o' Eo']. cbn [bind]. unfold write_all at 1. rewrite Eo', El. cbn [bind].
    destruct (IH s' _ (run_ops o' d') _ Er) as [d2' ->]. cbn [bind]. eauto.
Qed.
End Loop.

(** * A program *)
Section Program.
Context {Ops St : Type}.
Variable (m : mesh).
Variables (ite : St -> Z) (init : Z -> res (Ops * St)) (wsol : Ops -> string -> St -> list fsop) (wres : Ops -> string -> St -> disk -> list fsop)
  (rres : Ops -> string -> disk -> St -> res St) (line : Ops -> St -> res (list R)) (step : Ops -> St -> res St).
Definition g_ops (fuel : nat) (conf : ioconf) (mon : St -> list fsop) (d : disk) : res (list (Z * list fsop)) :=
  do (ops, s0) <- init (c_nstart conf);
  let d1 := run_ops (f_init_ops m conf) d in
  do (s1, w) <- io_initial_with ite (wsol ops) (rres ops) conf s0 d1;
  Ok ((c_nstart conf, f_init_ops m conf ++ w) ::
      f_ops fuel ite conf (step ops) (write_all ite (wsol ops) (wres ops) (line ops) conf mon) s1 (run_ops w d1)).
Notation gmain := (g_main m ite init wsol wres rres line step).

Hypothesis (Hinit : forall n ops s0, init n = Ok (ops, s0) -> ite s0 = n /\ forall n', exists s0', init n' = Ok (ops, s0')).
Hypothesis (Hite : forall ops s s', step ops s = Ok s' -> ite s' = (ite s + 1)%Z).
Hypothesis (Hrite : forall ops p d s s', rres ops p d s = Ok s' -> ite s' = ite s).
Hypothesis (Hws : forall ops p s o, In o (wsol ops p s) -> op_path o = p).
Hypothesis (Hwr : forall ops p s d o, In o (wres ops p s d) -> op_path o = p).
Hypothesis (Cws : forall ops b p s, open_from b (wsol ops p s) p = false).
Hypothesis (Cwr : forall ops b p s d, open_from b (wres ops p s d) p = false).
Hypothesis (Hloc : forall ops p d d' s, d p = d' p -> rres ops p d s = rres ops p d' s).

Lemma g_ops_disk fuel conf mon d s2 d2 ls tr : gmain fuel conf mon d = Ok (Some (s2, d2, ls)) -> g_ops fuel conf mon d = Ok tr -> d2 = run_ops (trace_ops tr) d.
Proof.
  intros H Ht. destruct (g_main_inv _ _ _ _ _ _ _ _ _ _ _ _ _ _ _ H) as (ops & s0 & s1 & w & E1 & E2 & E3). unfold g_ops in Ht. rewrite E1 in Ht. cbn [bind] in Ht. cbv zeta in Ht. rewrite E2 in Ht. cbn [bind] in Ht.
  injection Ht as <-. unfold trace_ops. cbn [flat_map snd]. rewrite !run_app. exact (f_ops_disk _ _ _ _ _ _ _ _ _ _ _ _ _ E3).
Qed.
Lemma g_ops_steps fuel conf mon d s2 d2 ls tr : gmain fuel conf mon d = Ok (Some (s2, d2, ls)) -> g_ops fuel conf mon d = Ok tr ->
  map fst tr = zrange (c_nstart conf) (c_nstart conf + Z.max 0 (c_nt conf) + 1).
Proof.
  intros H Ht. destruct (g_main_inv _ _ _ _ _ _ _ _ _ _ _ _ _ _ _ H) as (ops & s0 & s1 & w & E1 & E2 & E3). unfold g_ops in Ht. rewrite E1 in Ht. cbn [bind] in Ht. cbv zeta in Ht. rewrite E2 in Ht. cbn [bind] in Ht.
  injection Ht as <-. cbn [map fst]. destruct (Hinit _ _ _ E1) as [I0 _]. pose proof (io_inv ite wsol rres Hrite _ _ _ _ _ _ E2) as I1.
  rewrite (f_ops_steps ite (wsol ops) (wres ops) (line ops) (step ops) (Hite ops) conf mon _ _ _ _ _ _ E3).
  rewrite (zrange_cons (c_nstart conf)) by lia. f_equal. f_equal; unfold nleft; lia.
Qed.
Lemma g_ops_total fuel conf mon d r : gmain fuel conf mon d = Ok r -> exists tr, g_ops fuel conf mon d = Ok tr.
Proof.
  unfold g_main, g_ops. intros H. apply bind_ok_inv in H. destruct H as ([ops s0] & -> & H). cbn [bind]. cbv zeta in *. apply bind_ok_inv in H. destruct H as ([s1 w] & -> & H). cbn [bind]. eauto.
Qed.
Lemma init_paths conf n o : (0 <= n)%Z -> In o (f_init_ops m conf) -> op_path o <> solution_path (c_out conf) n.
Proof.
  intros Hn Hin. unfold f_init_ops in Hin. apply in_app_iff in Hin. destruct Hin as [Hin|[<-|[]]].
  - destruct (init_ops_paths _ _ _ Hin) as [-> | ->]; [now apply grid_not_solution|apply iterations_not_solution].
  - cbn [op_path]. intros E. unfold forces_path, solution_path in E. apply str_app_inj_l in E. cbn [String.append] in E. injection E as E.
    pose proof (step_name_digits n Hn) as Hd. destruct (step_name n) as [|c1 t]; cbn in E; [discriminate|]. injection E as E _. subst c1. cbn in Hd. lia.
Qed.
(** After a crash the file of a step that was completed is the one of the run
    that stops after that step. *)
Lemma g_crash fuel conf mon d s2 d2 ls tr done rest d' tr1 n o tr2 :
  (0 <= c_nstart conf)%Z -> (forall s o n, In o (mon s) -> op_path o <> solution_path (c_out conf) n) ->
  gmain fuel conf mon d = Ok (Some (s2, d2, ls)) -> g_ops fuel conf mon d = Ok tr ->
  trace_ops tr = done ++ rest -> crash_at done rest d d' -> tr = tr1 ++ (n, o) :: tr2 -> (length (trace_ops (tr1 ++ [(n, o)])) <= length done)%nat ->
  (c_nstart conf < n)%Z ->
  exists k sk dk ls1, n = (c_nstart conf + Z.of_nat k)%Z /\ (n <= c_nstart conf + c_nt conf)%Z /\ gmain fuel (for_steps conf k) mon d = Ok (Some (sk, dk, ls1)) /\
    d' (solution_path (c_out conf) n) = dk (solution_path (c_out conf) n) /\ d' (solution_path (c_out conf) n) = d2 (solution_path (c_out conf) n).
Proof.
  intros H0 Hm H Ht E C Et Hl Hn. destruct (g_main_inv _ _ _ _ _ _ _ _ _ _ _ _ _ _ _ H) as (ops & s0 & s1 & w & E1 & E2 & E3).
  unfold g_ops in Ht. rewrite E1 in Ht. cbn [bind] in Ht. cbv zeta in Ht. rewrite E2 in Ht. cbn [bind] in Ht. injection Ht as Ht. subst tr.
  destruct (Hinit _ _ _ E1) as [I0 _]. pose proof (io_inv ite wsol rres Hrite _ _ _ _ _ _ E2) as I1.
  destruct tr1 as [|[n1 o1] tr1]; [injection Et as Et _ _; exfalso; lia|]. injection Et as <- <- Et.
  set (d0 := run_ops w (run_ops (f_init_ops m conf) d)) in *. set (k := Datatypes.S (length tr1)).
  destruct (f_ops_prefix ite (wsol ops) (wres ops) (line ops) (step ops) (Hite ops) (Cws ops) (Cwr ops) conf mon Hm k fuel s1 d0 s2 d2 ls tr1 n o tr2 E3 Et) as (sk & ls1 & F1 & F2 & F3 & F4); [unfold k; lia|].
  exists k, sk, (run_ops (trace_ops (tr1 ++ [(n, o)])) d0), ls1. split; [unfold k; lia|].
  pose proof (f_ops_steps ite (wsol ops) (wres ops) (line ops) (step ops) (Hite ops) conf mon _ _ _ _ _ _ E3) as Hst. split.
  { assert (X : In n (map fst (f_ops fuel ite conf (step ops) (write_all ite (wsol ops) (wres ops) (line ops) conf mon) s1 d0))) by (rewrite Et, map_app; apply in_app_iff; right; now left).
    rewrite Hst in X. apply zrange_In in X. unfold nleft in X. lia. }
  split.
  { unfold g_main. change (c_nstart (for_steps conf k)) with (c_nstart conf). rewrite E1. cbn [bind]. cbv zeta. change (f_init_ops m (for_steps conf k)) with (f_init_ops m conf).
    change (io_initial_with ite (wsol ops) (rres ops) (for_steps conf k)) with (io_initial_with ite (wsol ops) (rres ops) conf). rewrite E2. cbn [bind]. exact F1. }
  set (path := solution_path (c_out conf) n) in *.
  rewrite Et in E. assert (Etr : trace_ops ((c_nstart conf, f_init_ops m conf ++ w) :: tr1 ++ (n, o) :: tr2) = trace_ops (((c_nstart conf, f_init_ops m conf ++ w) :: tr1) ++ [(n, o)]) ++ trace_ops tr2).
  { unfold trace_ops. rewrite <- flat_map_app. f_equal. cbn [Datatypes.app]. f_equal. rewrite <- app_assoc. reflexivity. }
  rewrite Etr in E. destruct (longer_prefix _ _ _ _ E Hl) as (part & Ed & Ep).
  assert (N : NoDup (map fst (tr1 ++ (n, o) :: tr2))).
  { rewrite <- Et, Hst. apply zrange_NoDup. }
  rewrite map_app in N. cbn [map fst] in N. apply NoDup_remove_2 in N.
  assert (U : forall k' o' x, In (k', o') (tr1 ++ tr2) -> In x o' -> op_path x <> path).
  { intros k' o' x Hin Hx Hp. apply N. rewrite <- map_app. apply in_map_iff. exists (k', o'). split; [|exact Hin]. cbn [fst].
    symmetry. apply (f_ops_paths ite (wsol ops) (wres ops) (line ops) (step ops) (Hite ops) (Hws ops) (Hwr ops) conf mon Hm fuel s1 d0 k' o' x n); [lia|lia| |exact Hx|exact Hp].
    rewrite Et. apply in_app_iff in Hin. apply in_app_iff. destruct Hin as [Hin|Hin]; [now left|right; now right]. }
  assert (U1 : forall x, In x (trace_ops tr1) -> op_path x <> path).
  { intros x Hx. unfold trace_ops in Hx. apply in_flat_map in Hx. destruct Hx as ([k' o'] & Hin & Hx). apply (U k' o' x); [apply in_app_iff; now left|exact Hx]. }
  assert (U2 : forall x, In x (trace_ops tr2) -> op_path x <> path).
  { intros x Hx. unfold trace_ops in Hx. apply in_flat_map in Hx. destruct Hx as ([k' o'] & Hin & Hx). apply (U k' o' x); [apply in_app_iff; now right|exact Hx]. }
  assert (U0' : forall x, In x w -> op_path x <> path).
  { intros x Hx Hp. unfold io_initial_with in E2. destruct (Z.eqb_spec (ite s0) 0) as [Z0|Z0]; [|apply bind_ok_inv in E2; destruct E2 as (s' & _ & E2); injection E2 as <- <-; destruct Hx].
    injection E2 as <- <-. rewrite (Hws _ _ _ _ Hx) in Hp. apply solution_path_inj in Hp; lia. }
  assert (Hpart : forall x, In x part -> op_path x <> path) by (intros x Hx; apply U2; rewrite Ep; apply in_app_iff; now left).
  assert (Edone : done = f_init_ops m conf ++ w ++ trace_ops tr1 ++ o ++ part).
  { rewrite Ed. unfold trace_ops. cbn [flat_map snd Datatypes.app]. rewrite flat_map_app. cbn [flat_map snd]. rewrite app_nil_r, <- !app_assoc. reflexivity. }
  assert (X : d' path = run_ops (trace_ops (tr1 ++ [(n, o)])) d0 path).
  2: { split; [exact X|]. rewrite X, (f_ops_disk _ _ _ _ _ _ _ _ _ _ _ _ _ E3), Et. change ((n, o) :: tr2) with ([(n, o)] ++ tr2). rewrite app_assoc. unfold trace_ops.
       rewrite (flat_map_app _ (tr1 ++ [(n, o)])), run_app. symmetry. apply run_other. exact U2. }
  rewrite C.
  - rewrite Edone, !run_app. rewrite (run_other part) by exact Hpart. fold d0. unfold trace_ops. rewrite flat_map_app. cbn [flat_map snd]. rewrite app_nil_r, run_app. reflexivity.
  - change (is_open done path) with (open_from false done path). rewrite Edone, !open_app. rewrite (open_other _ part) by exact Hpart.
    rewrite (open_other _ (trace_ops tr1)) by exact U1. rewrite (open_other _ w) by exact U0'. rewrite (open_other _ (f_init_ops m conf)) by (intros x Hx; apply init_paths; [lia|exact Hx]). exact F4.
  - destruct rest as [|x t]; [exact I|]. apply U2. rewrite Ep. apply in_app_iff. right. now left.
Qed.
(** What a restarted run does depends on the disk through the file it reads. *)
Lemma g_local fuel conf mon d d' s2 d2 ls : (0 < c_nstart conf)%Z -> d (solution_path (c_out conf) (c_nstart conf)) = d' (solution_path (c_out conf) (c_nstart conf)) ->
  gmain fuel conf mon d = Ok (Some (s2, d2, ls)) -> exists d2', gmain fuel conf mon d' = Ok (Some (s2, d2', ls)).
Proof.
  intros H0 Hd H. destruct (g_main_inv _ _ _ _ _ _ _ _ _ _ _ _ _ _ _ H) as (ops & s0 & s1 & w & E1 & E2 & E3). destruct (Hinit _ _ _ E1) as [I0 _].
  unfold g_main. rewrite E1. cbn [bind]. cbv zeta. unfold io_initial_with in *. destruct (Z.eqb_spec (ite s0) 0); [lia|].
  rewrite (Hloc ops _ (run_ops (f_init_ops m conf) d') (run_ops (f_init_ops m conf) d)) by (rewrite I0, !f_init_other by lia; auto).
  apply bind_ok_inv in E2. destruct E2 as (s' & Er & E2). injection E2 as <- <-. rewrite Er. cbn [bind]. exact (f_drive_local _ _ _ _ _ _ _ _ _ _ _ _ _ _ E3).
Qed.
(** A restart whose file cannot be read does not run. *)
Lemma g_no_read fuel conf mon d r : (0 < c_nstart conf)%Z ->
  (forall ops d' s s', d' (solution_path (c_out conf) (c_nstart conf)) = d (solution_path (c_out conf) (c_nstart conf)) -> rres ops (solution_path (c_out conf) (c_nstart conf)) d' s <> Ok s') ->
  gmain fuel conf mon d <> Ok r.
Proof.
  intros H0 Hr H. unfold g_main in H. apply bind_ok_inv in H. destruct H as ([ops s0] & E1 & H). cbv zeta in H. apply bind_ok_inv in H. destruct H as ([s1 w] & E2 & _).
  destruct (Hinit _ _ _ E1) as [I0 _]. unfold io_initial_with in E2. destruct (Z.eqb_spec (ite s0) 0); [lia|]. apply bind_ok_inv in E2. destruct E2 as (s' & Er & _).
  rewrite I0 in Er. eapply Hr; [|exact Er]. apply f_init_other. lia.
Qed.
End Program.

(** * The three programs *)
Lemma put_force_closed b path nf f : open_from b (put_force path nf f) path = false.
Proof. exact (open_close b [OpenApp path; Put path "/force" (force_data nf f)] path). Qed.
Lemma load_local d d' path nm n : d path = d' path -> load d path nm n = load d' path nm n.
Proof. intros E. unfold load. now rewrite E. Qed.
Lemma read_restart_local m D path d d' s : d path = d' path -> read_restart m D path d s = read_restart m D path d' s.
Proof.
  intros E. assert (L : load d path = load d' path) by (unfold load; rewrite E; reflexivity).
  unfold read_restart, solution_read, load_history. rewrite E, L. reflexivity.
Qed.
Lemma load_force_local path nf d d' f : d path = d' path -> load_force path nf d f = load_force path nf d' f.
Proof. intros E. unfold load_force. now rewrite (load_local d d' path _ _ E). Qed.
Lemma load_force_missing path nf d f Fl x : d path = Some Fl -> f_sets Fl "/force" = None -> load_force path nf d f <> Ok x.
Proof. intros E Ef. unfold load_force, load. rewrite E, Ef. discriminate. Qed.

Section Coupled.
Variables (m : mesh) (D : dec) (P : nspar) (types : Z -> Z -> bctype) (values : Z -> Z -> R) (name : string) (bodies : list (body * list (list R))) (t0 : R) (U0 p0 : vec).
Variables (conv : boundary -> vec -> res vec) (vs ps : vec -> vec -> vec).
Local Notation nf := (n_forces m bodies).
Local Notation main := (fun fuel conf mon d => ib_main fuel conf m D P types values name bodies t0 U0 p0 mon conv vs ps d).
Local Notation fops := (fun fuel conf mon d => ib_file_ops fuel conf m D P types values name bodies t0 U0 p0 mon conv vs ps d).
Local Notation gi := (c_init m D P types values name bodies t0 U0 p0).

Lemma c_ops_is fuel conf mon d : fops fuel conf mon d = g_ops m s_ite gi (ib_write_solution m D) (fun O => ib_write_restart m D O nf) (fun O => ib_read_restart m D O nf)
   (c_line m D bodies) (c_step m D P conv vs ps) fuel conf mon d.
Proof. reflexivity. Qed.
Lemma c_cws (O : ibops) b p s : open_from b (ib_write_solution m D O p s) p = false.
Proof. apply write_solution_closed. Qed.
Lemma c_cwr (O : ibops) b p s d : open_from b (ib_write_restart m D O nf p s d) p = false.
Proof. unfold ib_write_restart. rewrite open_app. apply put_force_closed. Qed.
Lemma c_local (O : ibops) p d d' s : d p = d' p -> ib_read_restart m D O nf p d s = ib_read_restart m D O nf p d' s.
Proof. intros E. unfold ib_read_restart. rewrite (read_restart_local _ _ _ _ _ _ E). now rewrite (load_force_local _ _ _ _ _ E). Qed.

Lemma c_ops fuel conf mon d s2 d2 ls : main fuel conf mon d = Ok (Some (s2, d2, ls)) ->
  exists tr, fops fuel conf mon d = Ok tr /\ d2 = run_ops (trace_ops tr) d /\ map fst tr = zrange (c_nstart conf) (c_nstart conf + Z.max 0 (c_nt conf) + 1).
Proof.
  cbv beta. rewrite ib_main_is. intros H. destruct (g_ops_total _ _ _ _ _ _ _ _ _ _ _ _ _ H) as [tr Ht]. exists tr. split; [exact Ht|].
  split; [exact (g_ops_disk _ _ _ _ _ _ _ _ _ _ _ _ _ _ _ _ H Ht)|].
  eapply g_ops_steps; [apply c_init_any|apply c_ite|apply c_rite|exact H|exact Ht].
Qed.
Lemma c_crash fuel conf mon d s2 d2 ls tr done rest d' tr1 n o tr2 :
  (0 <= c_nstart conf)%Z -> writes_elsewhere (c_out conf) mon ->
  main fuel conf mon d = Ok (Some (s2, d2, ls)) -> fops fuel conf mon d = Ok tr ->
  trace_ops tr = done ++ rest -> crash_at done rest d d' -> tr = tr1 ++ (n, o) :: tr2 -> (length (trace_ops (tr1 ++ [(n, o)])) <= length done)%nat ->
  (c_nstart conf < n)%Z ->
  exists k sk dk ls1, n = (c_nstart conf + Z.of_nat k)%Z /\ (n <= c_nstart conf + c_nt conf)%Z /\ main fuel (for_steps conf k) mon d = Ok (Some (sk, dk, ls1)) /\
    d' (solution_path (c_out conf) n) = dk (solution_path (c_out conf) n) /\ d' (solution_path (c_out conf) n) = d2 (solution_path (c_out conf) n).
Proof.
  cbv beta. intros H0 Hm H Ht. rewrite ib_main_is in H. setoid_rewrite ib_main_is.
  eapply g_crash; [apply c_init_any|apply c_ite|apply c_rite|apply c_ws|apply c_wr|apply c_cws|apply c_cwr|exact H0|exact Hm|exact H|exact Ht].
Qed.
Lemma c_disk fuel conf mon d d' s2 d2 ls : (0 < c_nstart conf)%Z -> d (solution_path (c_out conf) (c_nstart conf)) = d' (solution_path (c_out conf) (c_nstart conf)) ->
  main fuel conf mon d = Ok (Some (s2, d2, ls)) -> exists d2', main fuel conf mon d' = Ok (Some (s2, d2', ls)).
Proof. cbv beta. intros H0 Hd. rewrite !ib_main_is. eapply g_local; [apply c_init_any|apply c_local|exact H0|exact Hd]. Qed.
Lemma c_no_forces fuel conf mon d Fl r : (0 < c_nstart conf)%Z -> d (solution_path (c_out conf) (c_nstart conf)) = Some Fl -> f_sets Fl "/force" = None -> main fuel conf mon d <> Ok r.
Proof.
  cbv beta. intros H0 Hd Hf. rewrite ib_main_is. eapply g_no_read; [apply c_init_any|exact H0|]. intros O d' s s' Ed X. unfold ib_read_restart in X.
  apply bind_ok_inv in X. destruct X as (y & _ & X). apply bind_ok_inv in X. destruct X as (f & X & _). rewrite Hd in Ed. exact (load_force_missing _ _ _ _ _ _ Ed Hf X).
Qed.
End Coupled.

Section Decoupled.
Variables (m : mesh) (D : dec) (P : nspar) (types : Z -> Z -> bctype) (values : Z -> Z -> R) (name : string) (bodies : list (body * list (list R))) (t0 : R) (U0 p0 : vec).
Variables (conv : boundary -> vec -> res vec) (vs ps fs : vec -> vec -> vec).
Local Notation nf := (n_forces m bodies).
Local Notation main := (fun fuel conf mon d => d_main fuel conf m D P types values name bodies t0 U0 p0 mon conv vs ps fs d).
Local Notation fops := (fun fuel conf mon d => d_file_ops fuel conf m D P types values name bodies t0 U0 p0 mon conv vs ps fs d).

Lemma e_cws b p x : open_from b (d_write_solution m D p x) p = false.
Proof. apply write_solution_closed. Qed.
Lemma e_cwr b n p x d : open_from b (d_write_restart m D n p x d) p = false.
Proof. unfold d_write_restart. rewrite open_app. apply put_force_closed. Qed.
Lemma e_local n p d d' x : d p = d' p -> d_read_restart m D n p d x = d_read_restart m D n p d' x.
Proof. intros E. unfold d_read_restart. rewrite (read_restart_local _ _ _ _ _ _ E). now rewrite (load_force_local _ _ _ _ _ E). Qed.

Lemma e_ops fuel conf mon d s2 d2 ls : main fuel conf mon d = Ok (Some (s2, d2, ls)) ->
  exists tr, fops fuel conf mon d = Ok tr /\ d2 = run_ops (trace_ops tr) d /\ map fst tr = zrange (c_nstart conf) (c_nstart conf + Z.max 0 (c_nt conf) + 1).
Proof.
  cbv beta. rewrite d_main_is. intros H. destruct (g_ops_total _ _ _ _ _ _ _ _ _ _ _ _ _ H) as [tr Ht]. exists tr. split; [exact Ht|].
  split; [exact (g_ops_disk _ _ _ _ _ _ _ _ _ _ _ _ _ _ _ _ H Ht)|].
  eapply g_ops_steps; [apply e_init_any|intros OX x x'; apply e_ite|intros OX p y x x'; apply e_rite|exact H|exact Ht].
Qed.
Lemma e_crash fuel conf mon d s2 d2 ls tr done rest d' tr1 n o tr2 :
  (0 <= c_nstart conf)%Z -> writes_elsewhere (c_out conf) mon ->
  main fuel conf mon d = Ok (Some (s2, d2, ls)) -> fops fuel conf mon d = Ok tr ->
  trace_ops tr = done ++ rest -> crash_at done rest d d' -> tr = tr1 ++ (n, o) :: tr2 -> (length (trace_ops (tr1 ++ [(n, o)])) <= length done)%nat ->
  (c_nstart conf < n)%Z ->
  exists k sk dk ls1, n = (c_nstart conf + Z.of_nat k)%Z /\ (n <= c_nstart conf + c_nt conf)%Z /\ main fuel (for_steps conf k) mon d = Ok (Some (sk, dk, ls1)) /\
    d' (solution_path (c_out conf) n) = dk (solution_path (c_out conf) n) /\ d' (solution_path (c_out conf) n) = d2 (solution_path (c_out conf) n).
Proof.
  cbv beta. intros H0 Hm H Ht. rewrite d_main_is in H. setoid_rewrite d_main_is.
  eapply g_crash; [apply e_init_any|intros OX x x'; apply e_ite|intros OX p y x x'; apply e_rite|intros OX; apply e_ws|intros OX; apply e_wr|intros OX; apply e_cws|intros OX ? ? ? ?; apply e_cwr|exact H0|exact Hm|exact H|exact Ht].
Qed.
Lemma e_disk fuel conf mon d d' s2 d2 ls : (0 < c_nstart conf)%Z -> d (solution_path (c_out conf) (c_nstart conf)) = d' (solution_path (c_out conf) (c_nstart conf)) ->
  main fuel conf mon d = Ok (Some (s2, d2, ls)) -> exists d2', main fuel conf mon d' = Ok (Some (s2, d2', ls)).
Proof. cbv beta. intros H0 Hd. rewrite !d_main_is. eapply g_local; [apply e_init_any|intros OX; apply e_local|exact H0|exact Hd]. Qed.
Lemma e_no_forces fuel conf mon d Fl r : (0 < c_nstart conf)%Z -> d (solution_path (c_out conf) (c_nstart conf)) = Some Fl -> f_sets Fl "/force" = None -> main fuel conf mon d <> Ok r.
Proof.
  cbv beta. intros H0 Hd Hf. rewrite d_main_is. eapply g_no_read; [apply e_init_any|exact H0|]. intros O d' s s' Ed X. unfold d_read_restart in X.
  apply bind_ok_inv in X. destruct X as (y & _ & X). apply bind_ok_inv in X. destruct X as (f & X & _). rewrite Hd in Ed. exact (load_force_missing _ _ _ _ _ _ Ed Hf X).
Qed.
End Decoupled.

Section Moving.
Variables (m : mesh) (D : dec) (P : nspar) (types : Z -> Z -> bctype) (values : Z -> Z -> R) (name : string) (bodies : list (body * list (list R))) (mo : motion) (t0 : R) (U0 p0 : vec).
Variables (conv : boundary -> vec -> res vec) (vs ps : vec -> vec -> vec) (fs : mat -> vec -> vec -> vec).
Local Notation main := (fun fuel conf mon d => r_main fuel conf m D P types values name bodies mo t0 U0 p0 mon conv vs ps fs d).
Local Notation fops := (fun fuel conf mon d => r_file_ops fuel conf m D P types values name bodies mo t0 U0 p0 mon conv vs ps fs d).
Lemma v_local p d d' s : d p = d' p -> r_read_restart m D p d s = r_read_restart m D p d' s.
Proof. intros E. unfold r_read_restart. now rewrite (e_local _ _ _ _ _ _ _ E). Qed.
Lemma v_any n O s0 : v_init m D P types values name bodies t0 U0 p0 n = Ok (O, s0) -> r_ite s0 = n /\ forall n', exists s0', v_init m D P types values name bodies t0 U0 p0 n' = Ok (O, s0').
Proof. intros HI. eapply (proj2 (v_init_any _ _ _ _ _ _ _ _ _ _ _ _ _ HI)). Qed.
Lemma v_next O s s' : v_step m D P name conv vs ps mo fs O s = Ok s' -> r_ite s' = (r_ite s + 1)%Z.
Proof. intros H. eapply v_ite; exact H. Qed.
Lemma v_rite p d s s' : r_read_restart m D p d s = Ok s' -> r_ite s' = r_ite s.
Proof. intros HH. exact (e_rite _ _ _ _ _ _ _ (proj1 (v_read_inv _ _ _ _ _ _ HH))). Qed.

Lemma v_ops fuel conf mon d s2 d2 ls : main fuel conf mon d = Ok (Some (s2, d2, ls)) ->
  exists tr, fops fuel conf mon d = Ok tr /\ d2 = run_ops (trace_ops tr) d /\ map fst tr = zrange (c_nstart conf) (c_nstart conf + Z.max 0 (c_nt conf) + 1).
Proof.
  cbv beta. rewrite r_main_is. intros H. destruct (g_ops_total _ _ _ _ _ _ _ _ _ _ _ _ _ H) as [tr Ht]. exists tr. split; [exact Ht|].
  split; [exact (g_ops_disk _ _ _ _ _ _ _ _ _ _ _ _ _ _ _ _ H Ht)|].
  eapply g_ops_steps; [apply v_any|apply v_next|intros OX p y x x'; apply v_rite|exact H|exact Ht].
Qed.
Lemma v_crash fuel conf mon d s2 d2 ls tr done rest d' tr1 n o tr2 :
  (0 <= c_nstart conf)%Z -> writes_elsewhere (c_out conf) mon ->
  main fuel conf mon d = Ok (Some (s2, d2, ls)) -> fops fuel conf mon d = Ok tr ->
  trace_ops tr = done ++ rest -> crash_at done rest d d' -> tr = tr1 ++ (n, o) :: tr2 -> (length (trace_ops (tr1 ++ [(n, o)])) <= length done)%nat ->
  (c_nstart conf < n)%Z ->
  exists k sk dk ls1, n = (c_nstart conf + Z.of_nat k)%Z /\ (n <= c_nstart conf + c_nt conf)%Z /\ main fuel (for_steps conf k) mon d = Ok (Some (sk, dk, ls1)) /\
    d' (solution_path (c_out conf) n) = dk (solution_path (c_out conf) n) /\ d' (solution_path (c_out conf) n) = d2 (solution_path (c_out conf) n).
Proof.
  cbv beta. intros H0 Hm H Ht. rewrite r_main_is in H. setoid_rewrite r_main_is.
  eapply g_crash; [apply v_any|apply v_next|intros OX p y x x'; apply v_rite|intros OX p s; apply e_ws|intros OX p s; apply e_wr|intros OX ? p s; apply e_cws|intros OX ? ? ? ?; apply e_cwr|exact H0|exact Hm|exact H|exact Ht].
Qed.
Lemma v_disk fuel conf mon d d' s2 d2 ls : (0 < c_nstart conf)%Z -> d (solution_path (c_out conf) (c_nstart conf)) = d' (solution_path (c_out conf) (c_nstart conf)) ->
  main fuel conf mon d = Ok (Some (s2, d2, ls)) -> exists d2', main fuel conf mon d' = Ok (Some (s2, d2', ls)).
Proof. cbv beta. intros H0 Hd. rewrite !r_main_is. eapply g_local; [apply v_any|intros OX; apply v_local|exact H0|exact Hd]. Qed.
Lemma v_no_forces fuel conf mon d Fl r : (0 < c_nstart conf)%Z -> d (solution_path (c_out conf) (c_nstart conf)) = Some Fl -> f_sets Fl "/force" = None -> main fuel conf mon d <> Ok r.
Proof.
  cbv beta. intros H0 Hd Hf. rewrite r_main_is. eapply g_no_read; [apply v_any|exact H0|]. intros O d' s s' Ed X. unfold r_read_restart in X; apply bind_ok_inv in X; destruct X as (x & X & _); unfold d_read_restart in X.
  apply bind_ok_inv in X. destruct X as (y & _ & X). apply bind_ok_inv in X. destruct X as (f & X & _). rewrite Hd in Ed. exact (load_force_missing _ _ _ _ _ _ Ed Hf X).
Qed.
End Moving.
