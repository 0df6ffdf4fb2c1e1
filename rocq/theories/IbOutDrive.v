From Coq Require Import ZifyBool String.
From Verif Require Import Prelude ZSum RSum TypesModel GridModel GridSpec GridProof MeshProof
  IndexModel IndexSpec IndexProof BoundaryModel BoundarySpec BoundaryProof OperatorModel OperatorSpec OperatorProof BStateProof LapProof AdjProof
  MatModel BnModel NSModel NSSpec NSProof NSTotal NameModel NameProof DriverModel DriverSpec DriverProof DriveProof RestartProof
  BodyModel BodySpec DeltaModel DeltaSpec IbpmModel IbpmSpec IbOutModel.
Local Open Scope R_scope.

Lemma write_step_is conf m D mon s d : write_step conf m D mon s d = write_step_with s_ite (write_solution m D) (write_restart m D) conf mon s d.
Proof. reflexivity. Qed.

Lemma run_front {A} (step : A -> res A) k s : run_steps step (S k) s = do s' <- step s; run_steps step k s'.
Proof.
  induction k as [|k IH]; [cbn [run_steps bind]; destruct (step s); reflexivity|].
  change (run_steps step (S (S k)) s) with (do s' <- run_steps step (S k) s; step s'). rewrite IH. destruct (step s) as [s'| |]; cbn [bind]; reflexivity.
Qed.
Lemma run_add {A} (step : A -> res A) j k s : run_steps step (j + k) s = do s' <- run_steps step j s; run_steps step k s'.
Proof. revert s. induction j as [|j IH]; intros s; [reflexivity|]. cbn [Nat.add]. rewrite !run_front. destruct (step s); cbn [bind]; auto. Qed.

Section Drive.
Context {St : Type}.
Variables (ite : St -> Z) (wsol : string -> St -> list fsop) (wres : string -> St -> disk -> list fsop) (line : St -> res (list R)) (step : St -> res St).
Hypothesis (Hite : forall s s', step s = Ok s' -> ite s' = (ite s + 1)%Z).
Hypothesis (Hws : forall p s o, In o (wsol p s) -> op_path o = p).
Hypothesis (Hwr : forall p s d o, In o (wres p s d) -> op_path o = p).

Lemma run_ite k s s' : run_steps step k s = Ok s' -> ite s' = (ite s + Z.of_nat k)%Z.
Proof.
  revert s'. induction k as [|k IH]; intros s' H; [injection H as <-; lia|]. cbn [run_steps] in H. apply bind_ok_inv in H. destruct H as (s1 & E & H).
  rewrite (Hite _ _ H), (IH _ E). lia.
Qed.

Section Conf.
Variables (conf : ioconf) (mon : St -> list fsop).
Definition write_all (s : St) (d : disk) : res (list fsop * list R) :=
  do ops <- write_step_with ite wsol wres conf mon s d; do l <- line s; Ok (ops, l).
Definition nleft (s : St) : nat := Z.to_nat (c_nstart conf + c_nt conf - ite s).

Lemma write_with_inv s d ops : write_step_with ite wsol wres conf mon s d = Ok ops ->
  c_nsave conf <> 0%Z /\ c_nrestart conf <> 0%Z /\
  let path := solution_path (c_out conf) (ite s) in
  let ops1 := [PutText (iterations_path (c_out conf) (c_nstart conf)) (ite s)] in
  let ops2 := if (Z.rem (ite s) (c_nsave conf) =? 0)%Z
                then wsol path s ++ [OpenNew (log_path (c_logs conf) (ite s)); Close (log_path (c_logs conf) (ite s))] else [] in
  let ops3 := if (Z.rem (ite s) (c_nrestart conf) =? 0)%Z then wres path s (run_ops (ops1 ++ ops2) d) else [] in
  ops = ops1 ++ ops2 ++ ops3 ++ mon s.
Proof.
  unfold write_step_with. intros H. destruct (Z.eqb_spec (c_nsave conf) 0); [discriminate|]. destruct (Z.eqb_spec (c_nrestart conf) 0); [discriminate|].
  injection H as <-. auto.
Qed.
Lemma write_with_total s d : c_nsave conf <> 0%Z -> c_nrestart conf <> 0%Z -> exists ops, write_step_with ite wsol wres conf mon s d = Ok ops.
Proof. intros H1 H2. unfold write_step_with. destruct (Z.eqb_spec (c_nsave conf) 0); [contradiction|]. destruct (Z.eqb_spec (c_nrestart conf) 0); [contradiction|]. eauto. Qed.

Definition mon_elsewhere : Prop := forall s o n, In o (mon s) -> op_path o <> solution_path (c_out conf) n.
Lemma write_with_paths s d ops o k : mon_elsewhere -> (0 <= ite s)%Z -> (0 <= k)%Z ->
  write_step_with ite wsol wres conf mon s d = Ok ops -> In o ops -> op_path o = solution_path (c_out conf) k -> k = ite s.
Proof.
  intros Hm Hs Hk H Hin Ho. destruct (write_with_inv _ _ _ H) as (_ & _ & ->). cbv zeta in Hin.
  apply in_app_iff in Hin. destruct Hin as [[<-|[]]|Hin]; [exfalso; exact (iterations_not_solution _ _ _ _ Ho)|].
  apply in_app_iff in Hin. destruct Hin as [Hin|Hin].
  { destruct (_ =? 0)%Z; [|destruct Hin]. apply in_app_iff in Hin. destruct Hin as [Hin|Hin].
    - rewrite (Hws _ _ _ Hin) in Ho. apply solution_path_inj in Ho; auto.
    - destruct Hin as [<-|[<-|[]]]; exfalso; exact (log_not_solution _ _ _ _ Ho). }
  apply in_app_iff in Hin. destruct Hin as [Hin|Hin]; [|exfalso; eapply Hm; eauto].
  destruct (_ =? 0)%Z; [|destruct Hin]. rewrite (Hwr _ _ _ _ Hin) in Ho. apply solution_path_inj in Ho; auto.
Qed.

(** On a restart step whose file is new or was just written, the file of the
    step is what [wres] makes of the file [wsol] wrote. *)
Lemma write_with_file s d ops : mon_elsewhere -> write_step_with ite wsol wres conf mon s d = Ok ops ->
  let path := solution_path (c_out conf) (ite s) in
  (c_nrestart conf | ite s)%Z -> (c_nsave conf | ite s)%Z \/ d path = None ->
  exists d', (d' path = None \/ exists d0, d' path = run_ops (wsol path s) d0 path) /\ run_ops ops d path = run_ops (wres path s d') d' path.
Proof.
  intros Hm H path Hr Hs. destruct (write_with_inv _ _ _ H) as (N1 & N2 & ->). cbv zeta. fold path.
  assert (Er : (Z.rem (ite s) (c_nrestart conf) =? 0)%Z = true) by (apply Z.eqb_eq, Z.rem_divide; auto). rewrite Er.
  set (ops1 := [PutText (iterations_path (c_out conf) (c_nstart conf)) (ite s)]).
  set (ops2 := if (Z.rem (ite s) (c_nsave conf) =? 0)%Z then wsol path s ++ [OpenNew (log_path (c_logs conf) (ite s)); Close (log_path (c_logs conf) (ite s))] else []). exists (run_ops (ops1 ++ ops2) d). split.
  - rewrite run_app. assert (E1 : run_ops ops1 d path = d path) by (apply run_other; intros o [<-|[]]; apply iterations_not_solution).
    unfold ops2. destruct (Z.rem (ite s) (c_nsave conf) =? 0)%Z eqn:Es.
    + right. exists (run_ops ops1 d). rewrite run_app. apply run_other. intros o [<-|[<-|[]]]; apply log_not_solution.
    + left. destruct Hs as [Hs|Hs]; [apply Z.rem_divide in Hs; [lia|exact N1]|]. change (run_ops [] ?x) with x. now rewrite E1.
  - rewrite (app_assoc ops1), run_app, run_app. apply run_other. intros o Ho. exact (Hm s o _ Ho).
Qed.

Lemma f_drive_inv fuel s d s2 d2 ls : f_drive fuel ite conf step write_all s d = Ok (Some (s2, d2, ls)) ->
  run_steps step (nleft s) s = Ok s2 /\ lenZ ls = Z.of_nat (nleft s) /\
  (forall k l, nthZ ls k = Some l -> exists sk, run_steps step (Z.to_nat (k + 1)) s = Ok sk /\ line sk = Ok l) /\
  (nleft s <> 0%nat -> c_nsave conf <> 0%Z /\ c_nrestart conf <> 0%Z).
Proof.
  revert s d ls. induction fuel as [|f IH]; intros s d ls H; cbn [f_drive] in H.
  - destruct (_ >=? _)%Z eqn:E; [|discriminate]. injection H as <- <- <-. assert (L : nleft s = 0%nat) by (unfold nleft; lia). rewrite L.
    split; [reflexivity|]. split; [reflexivity|]. split; [|intros C; contradiction]. intros k l Hk. apply nthZ_Some_range in Hk. unfold lenZ in Hk. cbn in Hk. lia.
  - destruct (_ >=? _)%Z eqn:E.
    + injection H as <- <- <-. assert (L : nleft s = 0%nat) by (unfold nleft; lia). rewrite L.
      split; [reflexivity|]. split; [reflexivity|]. split; [|intros C; contradiction]. intros k l Hk. apply nthZ_Some_range in Hk. unfold lenZ in Hk. cbn in Hk. lia.
    + apply bind_ok_inv in H. destruct H as (s' & Es & H). apply bind_ok_inv in H. destruct H as ([o l] & Ew & H). apply bind_ok_inv in H. destruct H as (r & Er & H).
      destruct r as [[[s3 d3] ls']|]; [|discriminate]. injection H as <- <- <-. destruct (IH _ _ _ Er) as (H1 & H2 & H3 & _). pose proof (Hite _ _ Es) as Hi.
      assert (L : nleft s = Datatypes.S (nleft s')) by (unfold nleft; rewrite Hi; lia).
      unfold write_all in Ew. apply bind_ok_inv in Ew. destruct Ew as (o' & Eo & Ew). apply bind_ok_inv in Ew. destruct Ew as (l' & El & Ew). injection Ew as -> ->.
      rewrite L. split; [rewrite run_front, Es; exact H1|]. split; [rewrite lenZ_cons, H2; lia|]. split.
      * intros k l0 Hk. pose proof (nthZ_Some_range _ _ _ Hk) as Hr. destruct (Z.eq_dec k 0) as [->|N].
        -- rewrite nthZ_cons_0 in Hk. injection Hk as <-. exists s'. split; [|exact El]. change (Z.to_nat (0 + 1)) with 1%nat. rewrite run_front, Es. reflexivity.
        -- rewrite nthZ_cons_pos in Hk by lia. destruct (H3 _ _ Hk) as (sk & Ek & Elk). exists sk. split; [|exact Elk].
           replace (Z.to_nat (k + 1)) with (Datatypes.S (Z.to_nat (k - 1 + 1))) by lia. rewrite run_front, Es. exact Ek.
      * intros _. destruct (write_with_inv _ _ _ Eo) as (A & B & _). auto.
Qed.

Lemma f_drive_last fuel s d s2 d2 ls : mon_elsewhere -> (0 <= ite s)%Z -> f_drive fuel ite conf step write_all s d = Ok (Some (s2, d2, ls)) -> nleft s <> 0%nat ->
  exists d' ops, write_step_with ite wsol wres conf mon s2 d' = Ok ops /\ d2 = run_ops ops d' /\
    d' (solution_path (c_out conf) (ite s2)) = d (solution_path (c_out conf) (ite s2)).
Proof.
  intros Hm. revert s d ls. induction fuel as [|f IH]; intros s d ls Hs H L; cbn [f_drive] in H.
  - destruct (_ >=? _)%Z eqn:E; [|discriminate]. exfalso. apply L. unfold nleft. lia.
  - destruct (_ >=? _)%Z eqn:E; [exfalso; apply L; unfold nleft; lia|].
    apply bind_ok_inv in H. destruct H as (s' & Es & H). apply bind_ok_inv in H. destruct H as ([o l] & Ew & H). apply bind_ok_inv in H. destruct H as (r & Er & H).
    destruct r as [[[s3 d3] ls']|]; [|discriminate]. injection H as <- <- <-. pose proof (Hite _ _ Es) as Hi.
    unfold write_all in Ew. apply bind_ok_inv in Ew. destruct Ew as (o' & Eo & Ew). apply bind_ok_inv in Ew. destruct Ew as (l' & El & Ew). injection Ew as -> ->.
    destruct (f_drive_inv _ _ _ _ _ _ Er) as (Hrun & _).
    destruct (nleft s') as [|n] eqn:Ln.
    + cbn [run_steps] in Hrun. injection Hrun as ->. exists d, o. split; [exact Eo|]. split; [|reflexivity].
      destruct f as [|f]; cbn [f_drive] in Er; (destruct (ite s3 >=? c_nstart conf + c_nt conf)%Z eqn:E2; [injection Er as <- <-; reflexivity|exfalso; unfold nleft in Ln; lia]).
    + destruct (IH s' _ _ ltac:(lia) Er ltac:(rewrite Ln; lia)) as (d' & ops & W1 & W2 & W3). exists d', ops. split; [exact W1|]. split; [exact W2|]. rewrite W3.
      apply run_other. intros x Hx Hp. pose proof (run_ite _ _ _ Hrun) as Hn. assert (C : ite s3 = ite s') by (eapply (write_with_paths s' d o x); eauto; lia). lia.
Qed.

Lemma f_drive_total fuel s d : (nleft s <= fuel)%nat -> c_nsave conf <> 0%Z -> c_nrestart conf <> 0%Z ->
  (exists s2, run_steps step (nleft s) s = Ok s2) ->
  (forall k sk, (1 <= k <= nleft s)%nat -> run_steps step k s = Ok sk -> is_ok (line sk)) ->
  exists s2 d2 ls, f_drive fuel ite conf step write_all s d = Ok (Some (s2, d2, ls)).
Proof.
  intros Hf N1 N2. revert s d Hf. induction fuel as [|f IH]; intros s d Hf [s2 Hs] Hl; cbn [f_drive].
  - destruct (_ >=? _)%Z eqn:E; [eauto|exfalso; unfold nleft in Hf; lia].
  - destruct (_ >=? _)%Z eqn:E; [eauto|].
    assert (L : nleft s = Datatypes.S (nleft s - 1)) by (unfold nleft; lia). rewrite L, run_front in Hs. apply bind_ok_inv in Hs. destruct Hs as (s' & Es & Hs). rewrite Es. cbn [bind].
    pose proof (Hite _ _ Es) as Hi. destruct (write_with_total s' d N1 N2) as [o Eo]. unfold write_all at 1. rewrite Eo. cbn [bind].
    destruct (Hl 1%nat s' ltac:(lia) ltac:(rewrite run_front, Es; reflexivity)) as [l El]. rewrite El. cbn [bind].
    assert (L' : nleft s' = (nleft s - 1)%nat) by (unfold nleft; rewrite Hi; lia).
    destruct (IH s' (run_ops o d)) as (s3 & d3 & ls & Er); [lia|rewrite L'; eauto| |].
    { intros k sk Hk Ek. apply (Hl (Datatypes.S k) sk ltac:(lia)). rewrite run_front, Es. exact Ek. }
    rewrite Er. cbn [bind]. eauto.
Qed.
End Conf.

(** * Two runs in step *)
Variable (Rel : St -> St -> Prop).
Hypothesis (Rstep : forall s s' t, Rel s s' -> step s = Ok t -> exists t', step s' = Ok t' /\ Rel t t').
Hypothesis (Rline : forall s s', Rel s s' -> line s = line s').
Lemma R_run k s s' t : Rel s s' -> run_steps step k s = Ok t -> exists t', run_steps step k s' = Ok t' /\ Rel t t'.
Proof.
  intros HR. revert t. induction k as [|k IH]; intros t H; [injection H as <-; exists s'; auto|]. cbn [run_steps] in *.
  apply bind_ok_inv in H. destruct H as (t1 & E & H). destruct (IH _ E) as (t1' & -> & HS1). cbn [bind]. eapply Rstep; eauto.
Qed.

(** The rest of a run from a state in step with the one after k steps. *)
Lemma continue confA conf1 conf2 monA mon1 mon2 s sk s' dA d1 d2 fuelA fuel1 fuel2 sA dA' lsA s1' d1' ls1 k j :
  f_drive fuelA ite confA step (write_all confA monA) s dA = Ok (Some (sA, dA', lsA)) ->
  f_drive fuel1 ite conf1 step (write_all conf1 mon1) s d1 = Ok (Some (s1', d1', ls1)) ->
  nleft confA s = (k + j)%nat -> nleft conf1 s = k -> sk = s1' -> Rel sk s' -> ite s' = ite sk ->
  c_nstart conf2 = ite sk -> c_nt conf2 = Z.of_nat j -> c_nsave conf2 <> 0%Z -> c_nrestart conf2 <> 0%Z -> (j <= fuel2)%nat ->
  exists sB dB ls2, f_drive fuel2 ite conf2 step (write_all conf2 mon2) s' d2 = Ok (Some (sB, dB, ls2)) /\ Rel sA sB /\ lsA = ls1 ++ ls2.
Proof.
  intros HA H1 LA L1 -> HR Hi Hn2 Ht2 N1 N2 Hf.
  destruct (f_drive_inv _ _ _ _ _ _ _ _ HA) as (RA & LenA & LA' & _). rewrite LA in RA, LenA. destruct (f_drive_inv _ _ _ _ _ _ _ _ H1) as (R1 & Len1 & L1' & _). rewrite L1 in R1, Len1.
  rewrite run_add, R1 in RA. cbn [bind] in RA. assert (L2 : nleft conf2 s' = j) by (unfold nleft; lia).
  destruct (R_run j s1' s' sA HR RA) as (sB & EB & RB).
  assert (Hline : forall i tk, (i <= j)%nat -> run_steps step i s' = Ok tk -> (1 <= i)%nat -> exists l, nthZ lsA (Z.of_nat (k + i) - 1) = Some l /\ line tk = Ok l).
  { intros i tk Hij Ei Hi1. destruct (nthZ_in_range lsA (Z.of_nat (k + i) - 1) ltac:(lia)) as [l El]. exists l. split; [exact El|].
    destruct (LA' _ _ El) as (u & Eu & Elu). replace (Z.to_nat (Z.of_nat (k + i) - 1 + 1)) with (k + i)%nat in Eu by lia. rewrite run_add, R1 in Eu. cbn [bind] in Eu.
    destruct (R_run i s1' s' u HR Eu) as (u' & Eu' & Ru). rewrite Ei in Eu'. injection Eu' as <-. rewrite <- (Rline _ _ Ru). exact Elu. }
  destruct (f_drive_total conf2 mon2 fuel2 s' d2) as (s2 & dd2 & ls2 & E2); [lia|auto|auto|rewrite L2; eauto| |].
  { intros i tk Hi1 Ei. destruct (Hline i tk ltac:(lia) Ei ltac:(lia)) as (l & _ & El). exists l. exact El. }
  exists s2, dd2, ls2. split; [exact E2|]. destruct (f_drive_inv _ _ _ _ _ _ _ _ E2) as (R2 & Len2 & L2' & _). rewrite L2 in R2, Len2. rewrite EB in R2. injection R2 as <-. split; [exact RB|].
  apply nthZ_ext; [rewrite lenZ_app; lia|]. intros i C.
  destruct (nthZ_in_range lsA i ltac:(lia)) as [l El]. rewrite El. destruct (LA' _ _ El) as (u & Eu & Elu).
  destruct (Z.ltb_spec i (Z.of_nat k)) as [Hik|Hik].
  - rewrite nthZ_app_l by lia. destruct (nthZ_in_range ls1 i ltac:(lia)) as [l1 El1]. rewrite El1. destruct (L1' _ _ El1) as (u1 & Eu1 & Elu1). rewrite Eu in Eu1. injection Eu1 as <-. congruence.
  - rewrite nthZ_app_r by lia. rewrite Len1. destruct (nthZ_in_range ls2 (i - Z.of_nat k) ltac:(lia)) as [l2 El2]. rewrite El2. destruct (L2' _ _ El2) as (u2 & Eu2 & Elu2).
    destruct (Hline (Z.to_nat (i - Z.of_nat k + 1)) u2 ltac:(lia) Eu2 ltac:(lia)) as (l3 & El3 & Elu3).
    replace (Z.of_nat (k + Z.to_nat (i - Z.of_nat k + 1)) - 1)%Z with i in El3 by lia. rewrite El in El3. injection El3 as <-. congruence.
Qed.
End Drive.

(** * A program *)
Section Program.
Context {Ops St : Type}.
Variable (m : mesh).
Variables (ite : St -> Z) (init : Z -> res (Ops * St)) (wsol : Ops -> string -> St -> list fsop) (wres : Ops -> string -> St -> disk -> list fsop)
  (rres : Ops -> string -> disk -> St -> res St) (line : Ops -> St -> res (list R)) (step : Ops -> St -> res St).
Definition g_main (fuel : nat) (conf : ioconf) (mon : St -> list fsop) (d : disk) : res (option (St * disk * list (list R))) :=
  do (ops, s0) <- init (c_nstart conf);
  let d1 := run_ops (f_init_ops m conf) d in
  do (s1, w) <- io_initial_with ite (wsol ops) (rres ops) conf s0 d1;
  f_drive fuel ite conf (step ops) (write_all ite (wsol ops) (wres ops) (line ops) conf mon) s1 (run_ops w d1).

Lemma g_main_inv fuel conf mon d s2 d2 ls : g_main fuel conf mon d = Ok (Some (s2, d2, ls)) ->
  exists ops s0 s1 w, init (c_nstart conf) = Ok (ops, s0) /\ io_initial_with ite (wsol ops) (rres ops) conf s0 (run_ops (f_init_ops m conf) d) = Ok (s1, w) /\
    f_drive fuel ite conf (step ops) (write_all ite (wsol ops) (wres ops) (line ops) conf mon) s1 (run_ops w (run_ops (f_init_ops m conf) d)) = Ok (Some (s2, d2, ls)).
Proof.
  unfold g_main. intros H. apply bind_ok_inv in H. destruct H as ([ops s0] & E1 & H). cbv zeta in H. apply bind_ok_inv in H. destruct H as ([s1 w] & E2 & H).
  exists ops, s0, s1, w. auto.
Qed.

Hypothesis (Hinit : forall n ops s0, init n = Ok (ops, s0) -> ite s0 = n /\ forall n', exists s0', init n' = Ok (ops, s0')).
Hypothesis (Hite : forall ops s s', step ops s = Ok s' -> ite s' = (ite s + 1)%Z).
Hypothesis (Hrite : forall ops p d s s', rres ops p d s = Ok s' -> ite s' = ite s).
Hypothesis (Hws : forall ops p s o, In o (wsol ops p s) -> op_path o = p).
Hypothesis (Hwr : forall ops p s d o, In o (wres ops p s d) -> op_path o = p).

Lemma io_inv ops conf s0 d s1 w : io_initial_with ite (wsol ops) (rres ops) conf s0 d = Ok (s1, w) -> ite s1 = ite s0.
Proof.
  unfold io_initial_with. destruct (_ =? 0)%Z; intros H; [injection H as <- <-; reflexivity|].
  apply bind_ok_inv in H. destruct H as (s' & E & H). injection H as <- <-. eapply Hrite; eauto.
Qed.

(** The lines of the forces file. *)
Lemma g_lines fuel conf mon d s2 d2 ls : g_main fuel conf mon d = Ok (Some (s2, d2, ls)) ->
  exists ops s0 s1 w, init (c_nstart conf) = Ok (ops, s0) /\ io_initial_with ite (wsol ops) (rres ops) conf s0 (run_ops (f_init_ops m conf) d) = Ok (s1, w) /\
    run_steps (step ops) (Z.to_nat (c_nt conf)) s1 = Ok s2 /\ lenZ ls = Z.max 0 (c_nt conf) /\
    forall k l, nthZ ls k = Some l -> exists sk, run_steps (step ops) (Z.to_nat (k + 1)) s1 = Ok sk /\ line ops sk = Ok l.
Proof.
  intros H. destruct (g_main_inv _ _ _ _ _ _ _ H) as (ops & s0 & s1 & w & E1 & E2 & E3). exists ops, s0, s1, w. split; [exact E1|]. split; [exact E2|].
  destruct (f_drive_inv ite (wsol ops) (wres ops) (line ops) (step ops) (Hite ops) conf mon _ _ _ _ _ _ E3) as (H1 & H2 & H3 & _).
  pose proof (io_inv _ _ _ _ _ _ E2) as Hi. destruct (Hinit _ _ _ E1) as [Hi0 _].
  assert (L : nleft ite conf s1 = Z.to_nat (c_nt conf)) by (unfold nleft; lia). rewrite L in *. split; [exact H1|]. split; [lia|exact H3].
Qed.

(** Restarts. *)
Variables (Inv : Ops -> St -> Prop) (Rel : Ops -> St -> St -> Prop) (holds : Ops -> St -> file -> Prop).
Definition inited (ops : Ops) : Prop := exists n s0, init n = Ok (ops, s0).
Hypothesis (Hinv0 : forall n ops s0, init n = Ok (ops, s0) -> Inv ops s0).
Hypothesis (HinvR : forall n ops s0 p d s1, init n = Ok (ops, s0) -> rres ops p d s0 = Ok s1 -> Inv ops s1).
Hypothesis (HinvS : forall ops s s', Inv ops s -> step ops s = Ok s' -> Inv ops s').
Hypothesis (Rstep : forall ops s s' t, inited ops -> Rel ops s s' -> step ops s = Ok t -> exists t', step ops s' = Ok t' /\ Rel ops t t').
Hypothesis (Rline : forall ops s s', inited ops -> Rel ops s s' -> line ops s = line ops s').
Hypothesis (Hread : forall ops s0 sk path d Fl, init (ite sk) = Ok (ops, s0) -> Inv ops sk -> d path = Some Fl -> holds ops sk Fl ->
  exists s', rres ops path d s0 = Ok s' /\ Rel ops sk s').
Hypothesis (Hfile : forall ops sk path d', inited ops -> Inv ops sk -> (d' path = None \/ exists d0, d' path = run_ops (wsol ops path sk) d0 path) ->
  exists Fl, run_ops (wres ops path sk d') d' path = Some Fl /\ holds ops sk Fl).

Lemma f_init_other conf d n : (0 <= n)%Z -> run_ops (f_init_ops m conf) d (solution_path (c_out conf) n) = d (solution_path (c_out conf) n).
Proof.
  intros Hn. unfold f_init_ops. rewrite run_app, run_other; [apply init_ops_other; exact Hn|]. intros o [<-|[]]. cbn [op_path]. intros E.
  unfold forces_path, solution_path in E. apply str_app_inj_l in E. cbn [String.append] in E. injection E as E.
  pose proof (step_name_digits n Hn) as Hd. destruct (step_name n) as [|c1 t]; cbn in E; [discriminate|]. injection E as E _. subst c1. cbn in Hd. lia.
Qed.
Lemma run_inv ops k s s' : Inv ops s -> run_steps (step ops) k s = Ok s' -> Inv ops s'.
Proof.
  intros Hi. revert s'. induction k as [|k IH]; intros s' H; [injection H as <-; exact Hi|]. cbn [run_steps] in H. apply bind_ok_inv in H. destruct H as (s1 & E & H).
  exact (HinvS _ _ _ (IH _ E) H).
Qed.

Lemma g_restart confA conf1 conf2 monA mon1 mon2 fuelA fuel1 fuel2 d sA dA lsA s1' d1 ls1 k j :
  c_out confA = c_out conf1 -> c_out conf2 = c_out conf1 -> c_nstart confA = c_nstart conf1 -> (0 <= c_nstart conf1)%Z ->
  (forall s o n, In o (mon1 s) -> op_path o <> solution_path (c_out conf1) n) ->
  c_nt conf1 = Z.of_nat k -> (1 <= k)%nat -> c_nt confA = Z.of_nat (k + j) ->
  c_nstart conf2 = (c_nstart conf1 + Z.of_nat k)%Z -> c_nt conf2 = Z.of_nat j ->
  g_main fuelA confA monA d = Ok (Some (sA, dA, lsA)) ->
  g_main fuel1 conf1 mon1 d = Ok (Some (s1', d1, ls1)) ->
  (c_nrestart conf1 | c_nstart conf2)%Z ->
  (c_nsave conf1 | c_nstart conf2)%Z \/ d (solution_path (c_out conf1) (c_nstart conf2)) = None ->
  c_nsave conf2 <> 0%Z -> c_nrestart conf2 <> 0%Z -> (j <= fuel2)%nat ->
  exists ops sB dB ls2, inited ops /\ g_main fuel2 conf2 mon2 d1 = Ok (Some (sB, dB, ls2)) /\ Rel ops sA sB /\ lsA = ls1 ++ ls2.
Proof.
  intros HoA Ho2 HnA H0 Hm Hk Hk1 HkA Hn2 Hj HA H1 Hr Hs N1 N2 Hf.
  destruct (g_main_inv _ _ _ _ _ _ _ H1) as (ops & s0 & s1 & w & E1 & E2 & E3). destruct (g_main_inv _ _ _ _ _ _ _ HA) as (opsA & s0A & s1A & wA & A1 & A2 & A3).
  rewrite HnA, E1 in A1. injection A1 as <- <-.
  assert (X : s1A = s1).
  { unfold io_initial_with, f_init_ops, init_ops in *. rewrite HoA, HnA in A2. destruct (_ =? 0)%Z; [injection A2 as <- <-; injection E2 as <- <-; reflexivity|].
    rewrite E2 in A2. injection A2 as <- <-. reflexivity. }
  subst s1A. destruct (Hinit _ _ _ E1) as [Hi0 Hre]. pose proof (io_inv _ _ _ _ _ _ E2) as Hi1.
  assert (Hin : inited ops) by (eexists; eexists; exact E1).
  assert (I1 : Inv ops s1).
  { unfold io_initial_with in E2. destruct (_ =? 0)%Z; [injection E2 as <- <-; eapply Hinv0; eauto|]. apply bind_ok_inv in E2. destruct E2 as (s' & Er & E2).
    injection E2 as <- <-. eapply HinvR; eauto. }
  assert (L1 : nleft ite conf1 s1 = k) by (unfold nleft; lia). assert (LA : nleft ite confA s1 = (k + j)%nat) by (unfold nleft; lia).
  destruct (f_drive_inv ite (wsol ops) (wres ops) (line ops) (step ops) (Hite ops) conf1 mon1 _ _ _ _ _ _ E3) as (R1 & _). rewrite L1 in R1.
  pose proof (run_ite ite (step ops) (Hite ops) _ _ _ R1) as Hk'. pose proof (run_inv _ _ _ _ I1 R1) as Ik.
  assert (Hn : c_nstart conf2 = ite s1') by lia. rewrite Hn in *.
  assert (P1 : (0 <= ite s1)%Z) by lia. assert (P2 : nleft ite conf1 s1 <> 0%nat) by lia.
  destruct (f_drive_last ite (wsol ops) (wres ops) (line ops) (step ops) (Hite ops) (Hws ops) (Hwr ops) conf1 mon1 _ _ _ _ _ _ Hm P1 E3 P2) as (d' & o & Ew & Ed & Ep).
  assert (Ep' : d' (solution_path (c_out conf1) (ite s1')) = d (solution_path (c_out conf1) (ite s1'))).
  { rewrite Ep. rewrite run_other; [apply f_init_other; lia|]. intros x Hx Hp. unfold io_initial_with in E2.
    destruct (Z.eqb_spec (ite s0) 0) as [Z0|Z0]; [|apply bind_ok_inv in E2; destruct E2 as (s' & _ & E2); injection E2 as <- <-; destruct Hx].
    injection E2 as <- <-. rewrite (Hws _ _ _ _ Hx) in Hp. apply solution_path_inj in Hp; lia. }
  destruct (write_with_file ite (wsol ops) (wres ops) conf1 mon1 s1' d' o Hm Ew Hr) as (d'' & Hd'' & Eo). { destruct Hs as [Hs|Hs]; [left; exact Hs|right; rewrite Ep'; exact Hs]. }
  destruct (Hfile ops s1' (solution_path (c_out conf1) (ite s1')) d'' Hin Ik Hd'') as (Fl & EF & HF). rewrite EF, <- Ed in Eo.
  destruct (Hre (ite s1')) as [s0' E0'].
  destruct (Hread ops s0' s1' (solution_path (c_out conf1) (ite s1')) (run_ops (f_init_ops m conf2) d1) Fl E0' Ik) as (s' & Er & HR); [rewrite <- Ho2 in *; rewrite f_init_other by lia; exact Eo|exact HF|].
  destruct (continue ite (wsol ops) (wres ops) (line ops) (step ops) (Hite ops) (Rel ops) (fun s s' t => Rstep ops s s' t Hin) (fun s s' => Rline ops s s' Hin)
    confA conf1 conf2 monA mon1 mon2 s1 s1' s' _ _ (run_ops (f_init_ops m conf2) d1) _ _ fuel2 _ _ _ _ _ _ k j A3 E3 LA L1 eq_refl HR) as (sB & dB & ls2 & EB & RB & EL); auto.
  { rewrite (Hrite _ _ _ _ _ Er). destruct (Hinit _ _ _ E0'). auto. }
  exists ops, sB, dB, ls2. split; [exact Hin|]. split; [|auto]. unfold g_main. rewrite Hn, E0'. cbn [bind]. cbv zeta. unfold io_initial_with.
  destruct (Hinit _ _ _ E0') as [-> _]. destruct (Z.eqb_spec (ite s1') 0) as [Z0|Z0]; [lia|]. rewrite Ho2, Er. cbn [bind]. exact EB.
Qed.
End Program.
