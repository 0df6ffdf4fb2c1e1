From Coq Require Import ZifyBool String.
From Verif Require Import Prelude ZSum RSum TypesModel GridModel GridSpec GridProof MeshProof
  IndexModel IndexSpec IndexProof BoundaryModel BoundarySpec BoundaryProof OperatorModel OperatorSpec OperatorProof BStateProof LapProof AdjProof
  MatModel BnModel NSModel NSSpec NSProof NSTotal NameModel NameProof DriverModel DriverSpec DriverProof.
Local Open Scope R_scope.

(** * The main loop *)
Section Loop.
Variables (m : mesh) (D : dec) (P : nspar) (ops : nsops) (conv : boundary -> vec -> res vec) (vs ps : vec -> vec -> vec).
Variables (conf : ioconf) (mon : nsstate -> list fsop).
Let step := advance m D P ops conv vs ps.
Let steps := ns_steps m D P ops conv vs ps.

Lemma steps_front k s : steps (S k) s = do s' <- step s; steps k s'.
Proof.
  induction k as [|k IH]; [cbn [ns_steps steps]; unfold steps; cbn [ns_steps bind]; fold step; destruct (step s); reflexivity|].
  change (steps (S (S k)) s) with (do s' <- steps (S k) s; step s'). rewrite IH. destruct (step s) as [s'| |]; cbn [bind]; reflexivity.
Qed.
Lemma steps_add j k s : steps (j + k) s = do s' <- steps j s; steps k s'.
Proof.
  revert s. induction j as [|j IH]; intros s; [reflexivity|]. cbn [Nat.add]. rewrite !steps_front. destruct (step s); cbn [bind]; auto.
Qed.
Lemma step_ite s s' : step s = Ok s' -> s_ite s' = (s_ite s + 1)%Z /\ s_t s' = s_t s + p_dt P.
Proof. intros H. destruct (advance_inv _ _ _ _ _ _ _ _ _ H) as (? & ? & ? & _ & _ & _ & _ & _ & _ & _ & Ht & Hi & _). auto. Qed.
Lemma steps_ite k s s' : steps k s = Ok s' -> s_ite s' = (s_ite s + Z.of_nat k)%Z /\ s_t s' = s_t s + INR k * p_dt P.
Proof.
  revert s'. induction k as [|k IH]; intros s' H; [injection H as <-; cbn; split; [lia|lra]|].
  change (steps (S k) s) with (do s' <- steps k s; step s') in H. apply bind_ok_inv in H. destruct H as (s1 & E & H). destruct (IH _ E). destruct (step_ite _ _ H).
  rewrite S_INR. split; [lia|lra].
Qed.

Definition todo (s : nsstate) : nat := Z.to_nat (c_nstart conf + c_nt conf - s_ite s).
Lemma finished_todo s : finished conf s = true <-> todo s = 0%nat.
Proof. unfold finished, todo. lia. Qed.

Lemma drive_inv fuel s d s2 d2 tr : drive fuel conf m D mon step s d = Ok (Some (s2, d2, tr)) ->
  steps (todo s) s = Ok s2 /\ map fst tr = zrange (s_ite s + 1) (s_ite s + Z.of_nat (todo s) + 1) /\ d2 = run_ops (trace_ops tr) d.
Proof.
  revert s d tr. induction fuel as [|f IH]; intros s d tr H; cbn [drive] in H; destruct (finished conf s) eqn:E.
  - injection H as <- <- <-. apply finished_todo in E. rewrite E. cbn. split; [reflexivity|]. rewrite zrange_nil by lia. auto.
  - discriminate.
  - injection H as <- <- <-. apply finished_todo in E. rewrite E. cbn. split; [reflexivity|]. rewrite zrange_nil by lia. auto.
  - apply bind_ok_inv in H. destruct H as (s' & Es & H). apply bind_ok_inv in H. destruct H as (o & Eo & H). apply bind_ok_inv in H. destruct H as (r & Er & H).
    destruct r as [[[s3 d3] tr']|]; [|discriminate]. injection H as <- <- <-. destruct (IH _ _ _ Er) as (H1 & H2 & H3). destruct (step_ite _ _ Es) as [Hi _].
    assert (Ht : todo s = S (todo s')).
    { unfold todo. unfold finished in E. rewrite Hi. lia. }
    rewrite Ht. split; [rewrite steps_front, Es; exact H1|]. split.
    + cbn [map fst]. rewrite H2, Hi. rewrite (zrange_cons (s_ite s + 1)) by lia. f_equal. f_equal. lia.
    + unfold trace_ops. cbn [flat_map snd]. rewrite run_app. exact H3.
Qed.

Lemma drive_split fuel s d s2 d2 tr : drive fuel conf m D mon step s d = Ok (Some (s2, d2, tr)) ->
  forall tr1 k o tr2, tr = tr1 ++ (k, o) :: tr2 ->
  exists sj, steps (S (length tr1)) s = Ok sj /\ k = s_ite sj /\ write_step conf m D mon sj (run_ops (trace_ops tr1) d) = Ok o.
Proof.
  revert s d tr. induction fuel as [|f IH]; intros s d tr H tr1 k o tr2 E; cbn [drive] in H; destruct (finished conf s) eqn:Ef.
  - injection H as <- <- <-. destruct tr1; discriminate.
  - discriminate.
  - injection H as <- <- <-. destruct tr1; discriminate.
  - apply bind_ok_inv in H. destruct H as (s' & Es & H). apply bind_ok_inv in H. destruct H as (o' & Eo & H). apply bind_ok_inv in H. destruct H as (r & Er & H).
    destruct r as [[[s3 d3] tr']|]; [|discriminate]. injection H as <- <- <-. destruct tr1 as [|[k1 o1] tr1].
    + injection E as <- <- <-. exists s'. cbn [length]. rewrite steps_front, Es. auto.
    + injection E as <- <- ->. destruct (IH _ _ _ Er tr1 k o tr2 eq_refl) as (sj & E1 & E2 & E3). exists sj. cbn [length]. rewrite steps_front, Es.
      split; [exact E1|]. split; [exact E2|]. unfold trace_ops. cbn [flat_map snd]. rewrite run_app. exact E3.
Qed.

Lemma drive_total fuel s d : (todo s <= fuel)%nat -> c_nsave conf <> 0%Z -> c_nrestart conf <> 0%Z ->
  (exists s2, steps (todo s) s = Ok s2) -> exists s2 d2 tr, drive fuel conf m D mon step s d = Ok (Some (s2, d2, tr)).
Proof.
  intros Hf H1 H2. revert s d Hf. induction fuel as [|f IH]; intros s d Hf [s2 Hs]; cbn [drive]; destruct (finished conf s) eqn:E; eauto.
  - exfalso. unfold finished, todo in *. lia.
  - assert (Ht : todo s = S (todo s - 1)) by (unfold finished, todo in *; lia). rewrite Ht, steps_front in Hs. apply bind_ok_inv in Hs. destruct Hs as (s' & Es & Hs).
    rewrite Es. cbn [bind]. destruct (write_step_total conf m D mon s' d H1 H2) as [o Eo]. rewrite Eo. cbn [bind].
    destruct (step_ite _ _ Es) as [Hi _]. assert (Ht' : todo s' = (todo s - 1)%nat) by (unfold todo in *; rewrite Hi; lia).
    destruct (IH s' (run_ops o d)) as (s3 & d3 & tr & Er); [lia|rewrite Ht'; eauto|]. rewrite Er. cbn [bind]. eauto.
Qed.

(** The file of step k is written by the operations of step k only. *)
Lemma trace_fst fuel s d s2 d2 tr tr1 k o tr2 : drive fuel conf m D mon step s d = Ok (Some (s2, d2, tr)) -> tr = tr1 ++ (k, o) :: tr2 ->
  k = (s_ite s + 1 + Z.of_nat (length tr1))%Z.
Proof.
  intros H E. destruct (drive_split _ _ _ _ _ _ H _ _ _ _ E) as (sj & Ej & -> & _). destruct (steps_ite _ _ _ Ej). lia.
Qed.
Lemma trace_paths fuel s d s2 d2 tr : drive fuel conf m D mon step s d = Ok (Some (s2, d2, tr)) -> probes_elsewhere (c_out conf) mon -> (0 <= s_ite s)%Z ->
  forall k o x n, In (k, o) tr -> In x o -> (0 <= n)%Z -> op_path x = solution_path (c_out conf) n -> n = k.
Proof.
  intros H Hm Hs k o x n Hin Hx Hn Hp. apply in_split in Hin. destruct Hin as (tr1 & tr2 & E).
  destruct (drive_split _ _ _ _ _ _ H _ _ _ _ E) as (sj & Ej & -> & Ew). destruct (steps_ite _ _ _ Ej) as [Hi _].
  eapply write_step_paths; [exact Hm| |exact Hn|exact Ew|exact Hx|exact Hp]. lia.
Qed.
Lemma trace_other fuel s d s2 d2 tr trs n d0 : drive fuel conf m D mon step s d = Ok (Some (s2, d2, tr)) -> probes_elsewhere (c_out conf) mon -> (0 <= s_ite s)%Z -> (0 <= n)%Z ->
  (forall e, In e trs -> In e tr) -> (forall k o, In (k, o) trs -> k <> n) ->
  run_ops (trace_ops trs) d0 (solution_path (c_out conf) n) = d0 (solution_path (c_out conf) n).
Proof.
  intros H Hm Hs Hn Hsub Hk. apply run_other. intros x Hx Hp. unfold trace_ops in Hx. apply in_flat_map in Hx. destruct Hx as ([k o] & Hin & Hx).
  apply (Hk k o Hin). symmetry. eapply trace_paths; eauto.
Qed.
Lemma trace_mid fuel s d s2 d2 tr tr1 k o tr2 e : drive fuel conf m D mon step s d = Ok (Some (s2, d2, tr)) -> tr = tr1 ++ (k, o) :: tr2 ->
  (In e tr1 \/ In e tr2) -> fst e <> k.
Proof.
  intros H E Hin. destruct (drive_inv _ _ _ _ _ _ H) as (_ & Hf & _). subst tr. rewrite map_app in Hf. cbn [map fst] in Hf.
  pose proof (zrange_NoDup (s_ite s + 1) (s_ite s + Z.of_nat (todo s) + 1)) as Nd. rewrite <- Hf in Nd.
  apply NoDup_remove_2 in Nd. intros C. apply Nd. rewrite <- C. apply in_app_iff. destruct Hin as [Hin|Hin]; [left|right]; now apply in_map.
Qed.

(** The file of step k at any later point of the run. *)
Lemma file_later fuel s d s2 d2 tr tr1 k o tr2 tr3 : drive fuel conf m D mon step s d = Ok (Some (s2, d2, tr)) -> probes_elsewhere (c_out conf) mon -> (0 <= s_ite s)%Z ->
  tr = tr1 ++ (k, o) :: tr2 ++ tr3 ->
  run_ops (trace_ops (tr1 ++ (k, o) :: tr2)) d (solution_path (c_out conf) k) = run_ops o (run_ops (trace_ops tr1) d) (solution_path (c_out conf) k).
Proof.
  intros H Hm Hs E. pose proof (trace_fst _ _ _ _ _ _ _ _ _ _ H E) as Hk.
  unfold trace_ops at 1. rewrite flat_map_app. cbn [flat_map snd]. rewrite !run_app. fold (trace_ops tr1) (trace_ops tr2).
  eapply trace_other; [exact H|exact Hm|exact Hs|lia| |].
  - intros e He. subst tr. apply in_app_iff. right. right. apply in_app_iff. now left.
  - intros k' o' He. apply (trace_mid _ _ _ _ _ _ _ _ _ _ (k', o') H E). right. apply in_app_iff. now left.
Qed.
Lemma file_before fuel s d s2 d2 tr tr1 k o tr2 : drive fuel conf m D mon step s d = Ok (Some (s2, d2, tr)) -> probes_elsewhere (c_out conf) mon -> (0 <= s_ite s)%Z ->
  tr = tr1 ++ (k, o) :: tr2 -> run_ops (trace_ops tr1) d (solution_path (c_out conf) k) = d (solution_path (c_out conf) k).
Proof.
  intros H Hm Hs E. pose proof (trace_fst _ _ _ _ _ _ _ _ _ _ H E) as Hk. eapply trace_other; [exact H|exact Hm|exact Hs|lia| |].
  - intros e He. subst tr. apply in_app_iff. now left.
  - intros k' o' He. apply (trace_mid _ _ _ _ _ _ _ _ _ _ (k', o') H E). now left.
Qed.
Lemma trace_nth fuel s d s2 d2 tr j : drive fuel conf m D mon step s d = Ok (Some (s2, d2, tr)) -> (1 <= j <= todo s)%nat ->
  exists tr1 o tr2, tr = tr1 ++ ((s_ite s + Z.of_nat j)%Z, o) :: tr2 /\ length tr1 = (j - 1)%nat.
Proof.
  intros H Hj. destruct (drive_inv _ _ _ _ _ _ H) as (_ & Hf & _).
  assert (Hl : length tr = todo s) by (rewrite <- (map_length fst), Hf, zrange_length; lia).
  destruct (nth_error tr (j - 1)) as [[k o]|] eqn:E; [|apply nth_error_None in E; lia].
  destruct (nth_error_split _ _ E) as (tr1 & tr2 & E1 & E2). pose proof (trace_fst _ _ _ _ _ _ _ _ _ _ H E1) as Hk.
  exists tr1, o, tr2. split; [|exact E2]. replace (s_ite s + Z.of_nat j)%Z with k by lia. exact E1.
Qed.

(** Content of the files at the end of the run. *)
Lemma drive_files fuel s d s2 d2 tr : mfacts m D -> drive fuel conf m D mon step s d = Ok (Some (s2, d2, tr)) -> probes_elsewhere (c_out conf) mon -> (0 <= s_ite s)%Z ->
  (forall j sj, (1 <= j <= todo s)%nat -> steps j s = Ok sj ->
     let k := (s_ite s + Z.of_nat j)%Z in let path := solution_path (c_out conf) k in
     (divides (c_nsave conf) k = true \/ divides (c_nrestart conf) k = true /\ d path = None ->
        exists F, d2 path = Some F /\ holds_solution m D sj F /\ (divides (c_nrestart conf) k = true -> holds_history m sj F)) /\
     (divides (c_nsave conf) k = false -> divides (c_nrestart conf) k = true -> forall F0, d path = Some F0 ->
        exists F, d2 path = Some F /\ holds_history m sj F /\ f_time F = f_time F0 /\ forall nm, ~ is_history nm -> f_sets F nm = f_sets F0 nm) /\
     (divides (c_nsave conf) k = false -> divides (c_nrestart conf) k = false -> d2 path = d path)) /\
  (forall k, (0 <= k)%Z -> ~ (s_ite s < k <= s_ite s + Z.of_nat (todo s))%Z -> d2 (solution_path (c_out conf) k) = d (solution_path (c_out conf) k)).
Proof.
  intros HF H Hm Hs. destruct (drive_inv _ _ _ _ _ _ H) as (_ & Hf & Hd2). split.
  - intros j sj Hj Ej. cbv zeta. destruct (trace_nth _ _ _ _ _ _ j H Hj) as (tr1 & o & tr2 & E & Hl).
    destruct (drive_split _ _ _ _ _ _ H _ _ _ _ E) as (sj' & Ej' & Ek & Ew). rewrite Hl in Ej'. replace (S (j - 1)) with j in Ej' by lia.
    rewrite Ej in Ej'. injection Ej' as <-. rewrite Ek.
    pose proof (write_step_file conf m D mon sj _ o HF Hm Ew) as W. cbv zeta in W. rewrite <- Ek in W.
    rewrite (file_before _ _ _ _ _ _ _ _ _ _ H Hm Hs E) in W.
    pose proof (file_later _ _ _ _ _ _ tr1 _ o tr2 [] H Hm Hs ltac:(rewrite app_nil_r; exact E)) as L. rewrite <- E in L. rewrite <- Hd2 in L. rewrite <- L in W.
    rewrite Ek in W. exact W.
  - intros k Hk Hnk. rewrite Hd2. eapply trace_other; [exact H|exact Hm|exact Hs|exact Hk|auto|].
    intros k' o Hin ->. apply Hnk. apply (in_map fst) in Hin. rewrite Hf in Hin. apply zrange_In in Hin. cbn [fst] in Hin. lia.
Qed.

(** * Crashes *)
Lemma open_untouched l p : (forall o, In o l -> op_path o <> p) -> is_open l p = false.
Proof.
  unfold is_open. generalize false. induction l as [|o t IH]; intros b H; [reflexivity|]. cbn [fold_left].
  destruct (String.eqb_spec (op_path o) p) as [E|E]; [exfalso; apply (H o); [now left|exact E]|]. apply IH. intros; apply H. now right.
Qed.
End Loop.
