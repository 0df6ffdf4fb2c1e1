(** Programs with linear solves that can fail. *)
From Coq Require Import ZifyBool String FunctionalExtensionality.
From Verif Require Import Prelude ZSum RSum TypesModel GridModel GridSpec GridProof MeshProof IndexModel IndexSpec IndexProof
  BoundaryModel BoundarySpec BoundaryProof OperatorModel OperatorSpec OperatorProof BStateProof
  MatModel BnModel BnSpec BnProof NSModel NSSpec NSProof NSTotal NameModel DriverModel DriverSpec DriverProof DriveProof RestartProof
  BodyModel DeltaModel IbpmModel IbpmSpec IbOutModel IbOutProof IbOutDec LinModel LinSpec.
Local Open Scope R_scope.

Lemma ksp_ok k g b x : ksp_solve k g b = Ok x <-> converged k g b /\ x = returned k g b.
Proof.
  unfold ksp_solve, converged, returned. destruct (k g b) as [y r]. cbn [fst snd]. destruct (Z.ltb_spec r 0).
  - split; [discriminate|intros []; lia].
  - split; [intros E; injection E as <-; auto|intros [_ ->]; reflexivity].
Qed.
Lemma ksp_cases k g b : ksp_solve k g b = Ok (returned k g b) /\ converged k g b \/ ksp_solve k g b = Err PETSC_ERR_CONV_FAILED /\ ~ converged k g b.
Proof.
  unfold ksp_solve, converged, returned. destruct (k g b) as [y r]. cbn [fst snd]. destruct (Z.ltb_spec r 0); [right|left]; split; auto; lia.
Qed.

Section Step.
Variables (n : Z) (m : mesh) (D : dec) (P : nspar) (O : nsops) (rhs_v : nsstate -> res (vec * nsstate)) (rhs_p : vec -> boundary -> res vec) (kv kp : ksp).
Let good s := momentum_converged P rhs_v kv s /\ poisson_converged P rhs_v rhs_p kv kp s.
Let total_step := advance_with n m D P O rhs_v rhs_p (returned kv) (returned kp).
Let ksp_step := advance_ksp n m D P O rhs_v rhs_p kv kp.

Lemma ksp_step_ok s s' : ksp_step s = Ok s' <-> total_step s = Ok s' /\ good s.
Proof.
  unfold ksp_step, total_step, good, advance_ksp, advance_with, momentum_converged, poisson_converged. cbv zeta. fold (begun P s).
  destruct (rhs_v (begun P s)) as [[rhs1 s1]| |]; cbn [bind]; [|split; [discriminate|intros []; discriminate]..].
  destruct (ksp_cases kv (s_U s1) rhs1) as [[-> C1]|[-> C1]]; cbn [bind].
  2: { split; [discriminate|]. intros (_ & G & _). exfalso. apply C1. now apply G. }
  destruct (rhs_p (returned kv (s_U s1) rhs1) (s_bc s1)) as [b| |] eqn:Eb; cbn [bind]; [|split; [discriminate|intros []; discriminate]..].
  destruct (ksp_cases kp (s_dP s1) b) as [[-> C2]|[-> C2]]; cbn [bind].
  - split; [|intros []; assumption]. intros H. split; [exact H|]. split.
    + intros ? ? E. injection E as <- <-. exact C1.
    + intros ? ? ? E. injection E as <- <-. rewrite Eb. intros E. injection E as <-. exact C2.
  - split; [discriminate|]. intros (_ & _ & G). exfalso. apply C2. eapply G; [reflexivity|exact Eb].
Qed.
Lemma ksp_step_cases s : is_ok (total_step s) -> good s \/ ~ good s /\ ksp_step s = Err PETSC_ERR_CONV_FAILED.
Proof.
  intros [s' Hs]. revert Hs. unfold ksp_step, total_step, good, advance_ksp, advance_with, momentum_converged, poisson_converged. cbv zeta. fold (begun P s).
  destruct (rhs_v (begun P s)) as [[rhs1 s1]| |]; cbn [bind]; [|discriminate..].
  destruct (ksp_cases kv (s_U s1) rhs1) as [[-> C1]|[-> C1]]; cbn [bind]; [|intros _; right; split; [intros [G _]; apply C1; now apply G|reflexivity]].
  destruct (rhs_p (returned kv (s_U s1) rhs1) (s_bc s1)) as [b| |] eqn:Eb; cbn [bind]; [|discriminate..].
  destruct (ksp_cases kp (s_dP s1) b) as [[-> C2]|[-> C2]]; cbn [bind]; [|intros _; right; split; [intros [_ G]; apply C2; eapply G; [reflexivity|exact Eb]|reflexivity]].
  intros _. left. split.
  - intros ? ? E. injection E as <- <-. exact C1.
  - intros ? ? ? E. injection E as <- <-. rewrite Eb. intros E. injection E as <-. exact C2.
Qed.
End Step.

Section DStep.
Variables (m : mesh) (D : dec) (P : nspar) (O : nsops) (X : dops) (nf : Z) (conv : boundary -> vec -> res vec) (rhs_f : vec -> vec) (kv kp kf : ksp).
Let good := d_step_converged m D P O X nf conv rhs_f kv kp kf.
Let total_step := d_advance m D P O X nf conv rhs_f (returned kv) (returned kp) (returned kf).
Let ksp_step := d_advance_ksp m D P O X nf conv rhs_f kv kp kf.

Lemma d_ksp_step_ok x x' : ksp_step x = Ok x' <-> total_step x = Ok x' /\ good x.
Proof.
  unfold ksp_step, total_step, good, d_advance_ksp, d_advance, d_step_converged. cbv zeta. fold (begun P (x_ns x)).
  destruct (d_assembleRHSVelocity m D P O X nf conv (x_f x) (begun P (x_ns x))) as [[rhs1 s1]| |]; cbn [bind]; [|split; [discriminate|intros []; discriminate]..].
  destruct (ksp_cases kv (s_U s1) rhs1) as [[-> C1]|[-> C1]]; cbn [bind].
  2: { split; [discriminate|]. intros (_ & G). exfalso. apply C1. now apply G. }
  set (U1 := returned kv (s_U s1) rhs1).
  destruct (ksp_cases kf (x_df x) (rhs_f U1)) as [[-> C3]|[-> C3]]; cbn [bind].
  2: { split; [discriminate|]. intros (_ & G). exfalso. apply C3. now apply (G _ _ eq_refl). }
  destruct (assembleRHSPoisson m D P O (vaxpy U1 1 (mvec nf (di_BNH X) (returned kf (x_df x) (rhs_f U1)))) (s_bc s1)) as [b| |] eqn:Eb; cbn [bind]; [|split; [discriminate|intros []; discriminate]..].
  destruct (ksp_cases kp (s_dP s1) b) as [[-> C2]|[-> C2]]; cbn [bind].
  - split; [|intros []; assumption]. intros H. split; [exact H|]. intros ? ? E. injection E as <- <-. fold U1. split; [exact C1|]. split; [exact C3|].
    rewrite Eb. intros ? E. injection E as <-. exact C2.
  - split; [discriminate|]. intros (_ & G). exfalso. apply C2. now apply (G _ _ eq_refl).
Qed.
Lemma d_ksp_step_cases x : is_ok (total_step x) -> good x \/ ~ good x /\ ksp_step x = Err PETSC_ERR_CONV_FAILED.
Proof.
  intros [s' Hs]. revert Hs. unfold ksp_step, total_step, good, d_advance_ksp, d_advance, d_step_converged. cbv zeta. fold (begun P (x_ns x)).
  destruct (d_assembleRHSVelocity m D P O X nf conv (x_f x) (begun P (x_ns x))) as [[rhs1 s1]| |]; cbn [bind]; [|discriminate..].
  destruct (ksp_cases kv (s_U s1) rhs1) as [[-> C1]|[-> C1]]; cbn [bind]; [|intros _; right; split; [intros G; apply C1; now apply G|reflexivity]]. set (U1 := returned kv (s_U s1) rhs1).
  destruct (ksp_cases kf (x_df x) (rhs_f U1)) as [[-> C3]|[-> C3]]; cbn [bind]; [|intros _; right; split; [intros G; apply C3; now apply (G _ _ eq_refl)|reflexivity]].
  destruct (assembleRHSPoisson m D P O (vaxpy U1 1 (mvec nf (di_BNH X) (returned kf (x_df x) (rhs_f U1)))) (s_bc s1)) as [b| |] eqn:Eb; cbn [bind]; [|discriminate..].
  destruct (ksp_cases kp (s_dP s1) b) as [[-> C2]|[-> C2]]; cbn [bind]; [|intros _; right; split; [intros G; apply C2; now apply (G _ _ eq_refl)|reflexivity]].
  intros _. left. intros ? ? E. injection E as <- <-. fold U1. split; [exact C1|]. split; [exact C3|]. rewrite Eb. intros ? E. injection E as <-. exact C2.
Qed.
End DStep.

(** * The loop *)
Section Loop.
Context {St X : Type}.
Variables (ite : St -> Z) (write : St -> disk -> res (list fsop * X)).

(** The loop without failures. *)
Fixpoint pure_loop (fuel : nat) (conf : ioconf) (step : St -> res St) (s : St) (d : disk) : res (option (St * disk * list X)) :=
  if (ite s >=? c_nstart conf + c_nt conf)%Z then Ok (Some (s, d, []))
  else match fuel with
       | 0%nat => Ok None
       | S f => do s' <- step s; do (ops, x) <- write s' d;
                do r <- pure_loop f conf step s' (run_ops ops d);
                Ok (match r with Some (s2, d2, ls) => Some (s2, d2, x :: ls) | None => None end)
       end.

Variables (step stepT : St -> res St) (good : St -> Prop).
Hypothesis (Hok : forall s s', step s = Ok s' <-> stepT s = Ok s' /\ good s).
Hypothesis (Hite : forall s s', stepT s = Ok s' -> ite s' = (ite s + 1)%Z).

Lemma loop_done fuel conf s d s2 d2 tr :
  loop_all fuel ite conf step write s d = (Ok (Some s2), d2, tr) <->
  pure_loop fuel conf stepT s d = Ok (Some (s2, d2, tr)) /\
  forall j sj, (Z.of_nat j < c_nstart conf + c_nt conf - ite s)%Z -> run_steps stepT j s = Ok sj -> good sj.
Proof.
  revert s d tr. induction fuel as [|f IH]; intros s d tr; cbn [loop_all pure_loop]; destruct (ite s >=? c_nstart conf + c_nt conf)%Z eqn:E.
  - split.
    + intros H. injection H as <- <- <-. split; [reflexivity|]. intros. lia.
    + intros [H _]. now injection H as <- <- <-.
  - split; [discriminate|intros []; discriminate].
  - split.
    + intros H. injection H as <- <- <-. split; [reflexivity|]. intros. lia.
    + intros [H _]. now injection H as <- <- <-.
  - assert (Hfront : forall j sj s', stepT s = Ok s' -> run_steps stepT (S j) s = Ok sj <-> run_steps stepT j s' = Ok sj).
    { intros j. induction j as [|j IHj]; intros sj s' Es.
      - cbn [run_steps bind]. rewrite Es. reflexivity.
      - split; intros H.
        + change (run_steps stepT (S (S j)) s) with (do s1 <- run_steps stepT (S j) s; stepT s1) in H. apply bind_ok_inv in H. destruct H as (s1 & H1 & H2).
          apply (IHj _ _ Es) in H1. cbn [run_steps]. now rewrite H1.
        + cbn [run_steps] in H. apply bind_ok_inv in H. destruct H as (s1 & H1 & H2). apply (IHj _ _ Es) in H1.
          change (run_steps stepT (S (S j)) s) with (do s1 <- run_steps stepT (S j) s; stepT s1). now rewrite H1. }
    split.
    + intros H. destruct (step s) as [s'| |] eqn:Es; try discriminate. apply Hok in Es. destruct Es as [Es Gs]. rewrite Es. cbn [bind].
      destruct (write s' d) as [[ops x]| |]; try discriminate. cbn [bind].
      destruct (loop_all f ite conf step write s' (run_ops ops d)) as [[r d3] tr'] eqn:El. injection H as -> -> <-.
      apply IH in El. destruct El as [-> G]. cbn [bind]. split; [reflexivity|]. intros j sj Hj Hs. destruct j as [|j].
      * injection Hs as <-. exact Gs.
      * apply (Hfront j sj s' Es) in Hs. apply (G j sj); [|exact Hs]. rewrite (Hite _ _ Es). lia.
    + intros [H G]. apply bind_ok_inv in H. destruct H as (s' & Es & H). assert (Gs : good s) by (apply (G 0%nat s); [cbn; lia|reflexivity]).
      assert (Ek : step s = Ok s') by (apply Hok; auto). rewrite Ek. apply bind_ok_inv in H. destruct H as ([ops x] & Ew & H). rewrite Ew.
      apply bind_ok_inv in H. destruct H as (r & Er & H). destruct r as [[[s3 d3] ls]|]; [|discriminate]. injection H as <- <- <-.
      assert (El : loop_all f ite conf step write s' (run_ops ops d) = (Ok (Some s3), d3, ls)).
      { apply IH. split; [exact Er|]. intros j sj Hj Hs. apply (G (S j) sj); [rewrite (Hite _ _ Es) in Hj; lia|]. now apply (Hfront j sj s' Es). }
      rewrite El. reflexivity.
Qed.

Lemma loop_failed fuel conf s d e d2 tr : loop_all fuel ite conf step write s d = (Err e, d2, tr) ->
  exists s2, (ite s <= ite s2 < c_nstart conf + c_nt conf)%Z /\ pure_loop fuel (with_nt conf (ite s2 - c_nstart conf)) stepT s d = Ok (Some (s2, d2, tr)) /\
    run_steps stepT (Z.to_nat (ite s2 - ite s)) s = Ok s2 /\ (step s2 = Err e \/ exists s3, step s2 = Ok s3 /\ write s3 d2 = Err e).
Proof.
  revert s d tr. induction fuel as [|f IH]; intros s d tr H; cbn [loop_all] in H; destruct (ite s >=? c_nstart conf + c_nt conf)%Z eqn:E; try discriminate.
  assert (Here : forall s', d2 = d -> tr = [] -> (step s = Err e \/ step s = Ok s' /\ write s' d = Err e) ->
     exists s2, (ite s <= ite s2 < c_nstart conf + c_nt conf)%Z /\ pure_loop (S f) (with_nt conf (ite s2 - c_nstart conf)) stepT s d = Ok (Some (s2, d2, tr)) /\
     run_steps stepT (Z.to_nat (ite s2 - ite s)) s = Ok s2 /\ (step s2 = Err e \/ exists s3, step s2 = Ok s3 /\ write s3 d2 = Err e)).
  { intros s' -> -> Hs. exists s. split; [lia|]. split.
    - cbn [pure_loop with_nt c_nstart c_nt]. replace (ite s >=? c_nstart conf + (ite s - c_nstart conf))%Z with true by lia. reflexivity.
    - replace (Z.to_nat (ite s - ite s)) with 0%nat by lia. split; [reflexivity|]. destruct Hs as [Hs|Hs]; eauto. }
  destruct (step s) as [s'| |] eqn:Es; [|injection H as -> <- <-; apply (Here s); auto|discriminate].
  destruct (write s' d) as [[ops x]| |] eqn:Ew; [|injection H as -> <- <-; apply (Here s'); auto|discriminate].
  destruct (loop_all f ite conf step write s' (run_ops ops d)) as [[r d3] tr'] eqn:El. injection H as -> -> <-.
  destruct (IH _ _ _ El) as (s2 & Hi & Hp & Hr & Hc). destruct (proj1 (Hok _ _) Es) as [EsT Gs]. pose proof (Hite _ _ EsT) as Hi'.
  exists s2. split; [lia|]. split.
  - cbn [pure_loop with_nt c_nstart c_nt]. replace (ite s >=? c_nstart conf + (ite s2 - c_nstart conf))%Z with false by lia. rewrite EsT. cbn [bind]. rewrite Ew. cbn [bind].
    fold (with_nt conf (ite s2 - c_nstart conf)). rewrite Hp. reflexivity.
  - split; [|exact Hc]. replace (Z.to_nat (ite s2 - ite s)) with (S (Z.to_nat (ite s2 - ite s'))) by lia.
    remember (Z.to_nat (ite s2 - ite s')) as k eqn:Ek. clear - EsT Hr. revert s2 Hr. induction k as [|k IHk]; intros s2 Hr.
    + cbn [run_steps bind] in *. now rewrite EsT.
    + cbn [run_steps] in Hr. apply bind_ok_inv in Hr. destruct Hr as (sa & H1 & H2).
      change (run_steps stepT (S (S k)) s) with (do s1 <- run_steps stepT (S k) s; stepT s1). rewrite (IHk _ H1). exact H2.
Qed.

(** What can happen when nothing but the solves fails. *)
Lemma loop_outcome fuel conf s d : (c_nstart conf + c_nt conf - ite s <= Z.of_nat fuel)%Z ->
  (forall k sk, run_steps stepT k s = Ok sk -> is_ok (stepT sk)) -> (forall k sk d', run_steps stepT k s = Ok sk -> is_ok (write sk d')) ->
  (forall s, is_ok (stepT s) -> good s \/ ~ good s /\ step s = Err PETSC_ERR_CONV_FAILED) ->
  (exists s2 d2 tr, loop_all fuel ite conf step write s d = (Ok (Some s2), d2, tr)) \/ (exists d2 tr, loop_all fuel ite conf step write s d = (Err PETSC_ERR_CONV_FAILED, d2, tr)).
Proof.
  intros Hf Hs Hw Hbad. revert s d Hf Hs Hw. induction fuel as [|f IH]; intros s d Hf Hs Hw; cbn [loop_all]; destruct (ite s >=? c_nstart conf + c_nt conf)%Z eqn:E; eauto.
  { lia. }
  destruct (Hbad s (Hs 0%nat s eq_refl)) as [G|[_ G]].
  - destruct (Hs 0%nat s eq_refl) as [s' Es]. assert (Ek : step s = Ok s') by (apply Hok; auto). rewrite Ek.
    assert (Hfront : forall k sk, run_steps stepT k s' = Ok sk -> run_steps stepT (S k) s = Ok sk).
    { intros k. induction k as [|k IHk]; intros sk H.
      - cbn [run_steps bind] in *. now rewrite Es.
      - cbn [run_steps] in H. apply bind_ok_inv in H. destruct H as (sa & H1 & H2). change (run_steps stepT (S (S k)) s) with (do s1 <- run_steps stepT (S k) s; stepT s1). rewrite (IHk _ H1). exact H2. }
    destruct (Hw 1%nat s' d) as [[ops x] Ew]; [cbn [run_steps bind]; exact Es|]. rewrite Ew.
    destruct (IH s' (run_ops ops d)) as [(s2 & d2 & tr & El)|(d2 & tr & El)].
    + rewrite (Hite _ _ Es). lia.
    + intros k sk Hk. exact (Hs (S k) sk (Hfront _ _ Hk)).
    + intros k sk d' Hk. exact (Hw (S k) sk d' (Hfront _ _ Hk)).
    + rewrite El. left. eauto.
    + rewrite El. right. eauto.
  - rewrite G. right. eauto.
Qed.
(** The loop that would complete with the returned solutions. *)
Hypothesis (Hbad : forall s, is_ok (stepT s) -> good s \/ ~ good s /\ step s = Err PETSC_ERR_CONV_FAILED).
Lemma loop_split fuel conf s d s2 d2 tr : pure_loop fuel conf stepT s d = Ok (Some (s2, d2, tr)) ->
  loop_all fuel ite conf step write s d = (Ok (Some s2), d2, tr) /\
    (forall k sk dk trk, (ite s <= c_nstart conf + k < c_nstart conf + c_nt conf)%Z -> pure_loop fuel (with_nt conf k) stepT s d = Ok (Some (sk, dk, trk)) -> good sk) \/
  exists k sk dk trk rest, (ite s <= c_nstart conf + k < c_nstart conf + c_nt conf)%Z /\ loop_all fuel ite conf step write s d = (Err PETSC_ERR_CONV_FAILED, dk, trk) /\
    pure_loop fuel (with_nt conf k) stepT s d = Ok (Some (sk, dk, trk)) /\ ~ good sk /\ tr = (trk ++ rest)%list.
Proof.
  revert s d tr. induction fuel as [|f IH]; intros s d tr H; cbn [loop_all pure_loop] in *; destruct (ite s >=? c_nstart conf + c_nt conf)%Z eqn:E; try discriminate.
  1,2: injection H as <- <- <-; left; split; [reflexivity|]; intros; lia.
  apply bind_ok_inv in H. destruct H as (s' & Es & H). apply bind_ok_inv in H. destruct H as ([ops x] & Ew & H).
  apply bind_ok_inv in H. destruct H as (r & Er & H). destruct r as [[[s3 d3] ls]|]; [|discriminate]. injection H as <- <- <-.
  destruct (Hbad s ltac:(eexists; exact Es)) as [G|[G Ek]].
  - assert (Ek : step s = Ok s') by (apply Hok; auto). rewrite Ek, Ew.
    destruct (IH _ _ _ Er) as [[El Hg]|(k & sk & dk & trk & rest & Hk & El & Hp & Hn & ->)]; rewrite El; rewrite (Hite _ _ Es) in *.
    + left. split; [reflexivity|]. intros k sk dk trk Hk Hp. cbn [with_nt c_nstart c_nt] in Hp. destruct (ite s >=? c_nstart conf + k)%Z eqn:Ek2.
      * injection Hp as <- _ _. exact G.
      * rewrite Es in Hp. cbn [bind] in Hp. rewrite Ew in Hp. cbn [bind] in Hp. apply bind_ok_inv in Hp. destruct Hp as (r & Er2 & Hp).
        destruct r as [[[s4 d4] ls4]|]; [|discriminate]. injection Hp as <- <- <-. apply (Hg k s4 d4 ls4); [lia|exact Er2].
    + right. exists k, sk, dk, (x :: trk), rest. split; [lia|]. split; [reflexivity|]. cbn [with_nt c_nstart c_nt].
      replace (ite s >=? c_nstart conf + k)%Z with false by lia. rewrite Es. cbn [bind]. rewrite Ew. cbn [bind]. fold (with_nt conf k). rewrite Hp. auto.
  - rewrite Ek. right. exists (ite s - c_nstart conf)%Z, s, d, [], (x :: ls). split; [lia|]. split; [reflexivity|]. cbn [with_nt c_nstart c_nt].
    replace (ite s >=? c_nstart conf + (ite s - c_nstart conf))%Z with true by lia. auto.
Qed.
End Loop.

(** * The Navier-Stokes program *)
Lemma run_steps_ns m D P ops conv vs ps k s : run_steps (advance m D P ops conv vs ps) k s = ns_steps m D P ops conv vs ps k s.
Proof. induction k as [|k IH]; [reflexivity|]. cbn [run_steps ns_steps]. now rewrite IH. Qed.

Definition recorded conf m D mon := fun (s : nsstate) (d : disk) => do o <- write_step conf m D mon s d; Ok (o, (s_ite s, o)).
Lemma drive_pure fuel conf m D mon step s d : drive fuel conf m D mon step s d = pure_loop s_ite (recorded conf m D mon) fuel conf step s d.
Proof.
  revert s d. induction fuel as [|f IH]; intros s d; cbn [drive pure_loop]; unfold finished; destruct (s_ite s >=? c_nstart conf + c_nt conf)%Z; auto.
  destruct (step s) as [s'| |]; cbn [bind]; auto. unfold recorded at 1. destruct (write_step conf m D mon s' d) as [o| |]; cbn [bind]; auto. now rewrite IH.
Qed.
Lemma pure_loop_write {St X} ite (w w' : St -> disk -> res (list fsop * X)) fuel conf step s d : (forall s d, w s d = w' s d) ->
  pure_loop ite w fuel conf step s d = pure_loop ite w' fuel conf step s d.
Proof.
  intros E. revert s d. induction fuel as [|f IH]; intros s d; cbn [pure_loop]; destruct (ite s >=? c_nstart conf + c_nt conf)%Z; auto.
  destruct (step s) as [s'| |]; cbn [bind]; auto. rewrite E. destruct (w' s' d) as [[o x]| |]; cbn [bind]; auto. now rewrite IH.
Qed.

Lemma with_nt_same conf : with_nt conf (c_nt conf) = conf.
Proof. destruct conf; reflexivity. Qed.

Section NS.
Variables (m : mesh) (D : dec) (P : nspar) (types : Z -> Z -> bctype) (values : Z -> Z -> R) (t0 : R) (U0 p0 : vec).
Variables (conv : boundary -> vec -> res vec) (kv kp : ksp) (conf : ioconf) (mon : nsstate -> list fsop) (fuel : nat) (d : disk).
Hypotheses (Hset : mesh_setup m D) (Hb : bc_fits m types).
Let F := setup_facts _ _ Hset.

Lemma started_total ops s1 vs ps k : started conf m D P types values t0 U0 p0 d ops s1 ->
  (forall h B x, boundary_after m D types values ([OpICs U0] ++ h) B -> is_ok (conv B x)) ->
  exists s, ns_steps m D P ops conv vs ps k s1 = Ok s /\ is_ok (advance m D P ops conv vs ps s).
Proof.
  intros (s0 & w & HI & HIO) Hc.
  destruct (ns_init_inv _ _ _ _ _ _ _ _ _ _ _ F Hb HI) as (B0 & HB0 & EO & E0).
  destruct (start_fresh m D P types values t0 U0 p0 F Hb conf ops s0 _ s1 w HI HIO) as (_ & Lc & Ld).
  assert (H1 : exists h, boundary_after m D types values ([OpICs U0] ++ h) (s_bc s1)).
  { unfold io_initial in HIO. destruct (s_ite s0 =? 0)%Z; [injection HIO as <- _; exists []; rewrite E0; exact HB0|].
    apply bind_ok_inv in HIO. destruct HIO as (s' & ER & HIO). injection HIO as <- _.
    unfold read_restart in ER. destruct (run_ops (init_ops m conf) d _); [|discriminate].
    apply bind_ok_inv in ER. destruct ER as ([U p] & _ & ER). apply bind_ok_inv in ER. destruct ER as (t & _ & ER). apply bind_ok_inv in ER. destruct ER as (cs & Ecs & ER).
    apply bind_ok_inv in ER. destruct ER as (ds & Eds & ER). apply bind_ok_inv in ER. destruct ER as (B & EB & ER). injection ER as <-. cbn [s_bc].
    rewrite E0 in EB. exists [OpICs U]. exact (bc_call_inv m D types values _ _ _ _ F Hb HB0 EB). }
  rewrite E0 in Lc, Ld. cbn [s_conv s_diff] in Lc, Ld. rewrite lenZ_map in Lc, Ld.
  assert (G : forall k, exists s, ns_steps m D P ops conv vs ps k s1 = Ok s /\ exists h, boundary_after m D types values ([OpICs U0] ++ h) (s_bc s)).
  { intros j. induction j as [|j (s & IH & h & Hh)]; [exists s1; split; [reflexivity|exact H1]|]. cbn [ns_steps]. rewrite IH. cbn [bind].
    pose proof (history_conv m D P ops conv vs ps s1 j s IH) as [Lc' _]. pose proof (history_diff m D P ops conv vs ps s1 j s IH) as [Ld' _].
    destruct (advance_total m D P types values F Hb conv vs ps B0 ops U0 h s) as [s' Es]; auto; try lia; [exact (Hc h _ _ Hh)|].
    exists s'. split; [exact Es|]. destruct (advance_inv _ _ _ _ _ _ _ _ _ Es) as (? & s2 & ? & _ & _ & B1 & _ & _ & _ & B2 & _).
    apply (bc_call_inv m D types values _ _ _ _ F Hb Hh) in B1. apply (bc_call_inv m D types values _ _ _ _ F Hb B1) in B2. rewrite <- !app_assoc in B2. eauto. }
  destruct (G k) as (s & Hs & h & Hh). exists s. split; [exact Hs|].
  pose proof (history_conv m D P ops conv vs ps s1 k s Hs) as [Lc' _]. pose proof (history_diff m D P ops conv vs ps s1 k s Hs) as [Ld' _].
  apply (advance_total m D P types values F Hb conv vs ps B0 ops U0 h s); auto; try lia. exact (Hc h _ _ Hh).
Qed.

Let stepK ops := ns_advance_ksp m D P ops conv kv kp.
Let stepT ops := advance m D P ops conv (returned kv) (returned kp).
Let good ops := step_converged m D P ops conv kv kp.
Lemma ns_ok ops s s' : stepK ops s = Ok s' <-> stepT ops s = Ok s' /\ good ops s.
Proof. exact (ksp_step_ok (n_pressure m) m D P ops (assembleRHSVelocity m D P ops conv) (assembleRHSPoisson m D P ops) kv kp s s'). Qed.
Lemma ns_ite ops s s' : stepT ops s = Ok s' -> s_ite s' = (s_ite s + 1)%Z.
Proof. intros H. apply (step_ite m D P ops conv (returned kv) (returned kp) s s' H). Qed.

Lemma ns_main_all_unfold ops s1 : started conf m D P types values t0 U0 p0 d ops s1 -> exists w d1, s_ite s1 = c_nstart conf /\
  (forall n vs ps, ns_main fuel (with_nt conf n) m D P types values t0 U0 p0 mon conv vs ps d =
     do r <- pure_loop s_ite (recorded conf m D mon) fuel (with_nt conf n) (advance m D P ops conv vs ps) s1 d1;
     Ok (match r with Some (s2, d2, tr) => Some (s2, d2, (s_ite s1, w) :: tr) | None => None end)) /\
  ns_main_all fuel conf m D P types values t0 U0 p0 mon conv kv kp d =
    (let '(r, d2, tr) := loop_all fuel s_ite conf (stepK ops) (recorded conf m D mon) s1 d1 in (r, d2, (s_ite s1, w) :: tr)).
Proof.
  intros (s0 & w & HI & HIO). exists w, (run_ops w (run_ops (init_ops m conf) d)). split; [|split].
  - destruct (ns_init_step _ _ _ _ _ _ _ (c_nstart conf) _ _ _ _ HI) as [Hi _]. unfold io_initial in HIO. destruct (s_ite s0 =? 0)%Z; [injection HIO as <- _; exact Hi|].
    apply bind_ok_inv in HIO. destruct HIO as (s' & ER & HIO). injection HIO as <- _.
    unfold read_restart in ER. destruct (run_ops (init_ops m conf) d _); [|discriminate].
    apply bind_ok_inv in ER. destruct ER as ([U p] & _ & ER). apply bind_ok_inv in ER. destruct ER as (t & _ & ER). apply bind_ok_inv in ER. destruct ER as (cs & Ecs & ER).
    apply bind_ok_inv in ER. destruct ER as (ds & Eds & ER). apply bind_ok_inv in ER. destruct ER as (B & EB & ER). injection ER as <-. exact Hi.
  - intros n vs ps. unfold ns_main. change (c_nstart (with_nt conf n)) with (c_nstart conf). rewrite HI. cbn [bind]. cbv zeta.
    change (init_ops m (with_nt conf n)) with (init_ops m conf). change (io_initial (with_nt conf n) m D s0) with (io_initial conf m D s0). rewrite HIO. cbn [bind].
    rewrite drive_pure. rewrite (pure_loop_write s_ite (recorded (with_nt conf n) m D mon) (recorded conf m D mon)) by reflexivity. reflexivity.
  - unfold ns_main_all. rewrite HI. cbv zeta. rewrite HIO. reflexivity.
Qed.

Lemma ns_outcome ops s1 : started conf m D P types values t0 U0 p0 d ops s1 ->
  (forall h B x, boundary_after m D types values ([OpICs U0] ++ h) B -> is_ok (conv B x)) ->
  c_nsave conf <> 0%Z -> c_nrestart conf <> 0%Z -> (c_nt conf <= Z.of_nat fuel)%Z ->
  (exists s2 d2 tr, ns_main_all fuel conf m D P types values t0 U0 p0 mon conv kv kp d = (Ok (Some s2), d2, tr)) \/
  (exists d2 tr, ns_main_all fuel conf m D P types values t0 U0 p0 mon conv kv kp d = (Err PETSC_ERR_CONV_FAILED, d2, tr)).
Proof.
  intros Hst Hc Hsv Hrs Hf. destruct (ns_main_all_unfold ops s1 Hst) as (w & d1 & Hi & _ & EA). rewrite EA.
  destruct (loop_outcome s_ite (recorded conf m D mon) (stepK ops) (stepT ops) (good ops) (ns_ok ops) (ns_ite ops) fuel conf s1 d1) as [(s2 & d2 & tr & El)|(d2 & tr & El)].
  - lia.
  - intros k sk Hk. destruct (started_total ops s1 (returned kv) (returned kp) k Hst Hc) as (s' & E & Hok). unfold stepT in Hk. rewrite run_steps_ns, E in Hk. injection Hk as <-. exact Hok.
  - intros k sk d' _. unfold recorded. destruct (write_step_total conf m D mon sk d' Hsv Hrs) as [o Eo]. rewrite Eo. cbn [bind]. eexists. reflexivity.
  - intros s Hs. exact (ksp_step_cases (n_pressure m) m D P ops (assembleRHSVelocity m D P ops conv) (assembleRHSPoisson m D P ops) kv kp s Hs).
  - rewrite El. left. eauto.
  - rewrite El. right. eauto.
Qed.

Lemma ns_split ops s0 s2 d2 tr : ns_init m D P types values t0 (c_nstart conf) U0 p0 = Ok (ops, s0) ->
  ns_main fuel conf m D P types values t0 U0 p0 mon conv (returned kv) (returned kp) d = Ok (Some (s2, d2, tr)) ->
  ns_main_all fuel conf m D P types values t0 U0 p0 mon conv kv kp d = (Ok (Some s2), d2, tr) /\
    (forall k sk dk trk, (0 <= k < c_nt conf)%Z -> ns_main fuel (with_nt conf k) m D P types values t0 U0 p0 mon conv (returned kv) (returned kp) d = Ok (Some (sk, dk, trk)) -> good ops sk) \/
  exists k sk dk trk rest, (0 <= k < c_nt conf)%Z /\ ns_main_all fuel conf m D P types values t0 U0 p0 mon conv kv kp d = (Err PETSC_ERR_CONV_FAILED, dk, trk) /\
    ns_main fuel (with_nt conf k) m D P types values t0 U0 p0 mon conv (returned kv) (returned kp) d = Ok (Some (sk, dk, trk)) /\ ~ good ops sk /\ tr = (trk ++ rest)%list.
Proof.
  intros HI H. assert (Hst : exists s1, started conf m D P types values t0 U0 p0 d ops s1).
  { pose proof H as H'. unfold ns_main in H'. rewrite HI in H'. cbn [bind] in H'. cbv zeta in H'. apply bind_ok_inv in H'. destruct H' as ([s1 w] & E & _). exists s1. exists s0, w. auto. }
  destruct Hst as [s1 Hst]. destruct (ns_main_all_unfold ops s1 Hst) as (w & d1 & Hi & EM & EA). rewrite EA. pose proof (EM (c_nt conf) (returned kv) (returned kp)) as E. rewrite with_nt_same in E.
  rewrite E in H. apply bind_ok_inv in H. destruct H as (r & Er & H). destruct r as [[[s3 d3] ls]|]; [|discriminate]. injection H as <- <- <-.
  destruct (loop_split s_ite (recorded conf m D mon) (stepK ops) (stepT ops) (good ops) (ns_ok ops) (ns_ite ops)
    (ksp_step_cases (n_pressure m) m D P ops (assembleRHSVelocity m D P ops conv) (assembleRHSPoisson m D P ops) kv kp) _ _ _ _ _ _ _ Er) as [[El G]|(k & sk & dk & trk & rest & Hk & El & Hp & Hn & ->)]; rewrite El.
  - left. split; [reflexivity|]. intros k sk dk trk Hk Hp. rewrite EM in Hp. apply bind_ok_inv in Hp. destruct Hp as (r & Er2 & Hp). destruct r as [[[s4 d4] ls4]|]; [|discriminate].
    injection Hp as <- <- <-. apply (G k s4 d4 ls4); [lia|exact Er2].
  - right. exists k, sk, dk, ((s_ite s1, w) :: trk), rest. split; [lia|]. split; [reflexivity|]. rewrite EM. fold (stepT ops). rewrite Hp. auto.
Qed.
End NS.

(** * The programs with bodies *)
Section Prog.
Context {Ops St X : Type}.
Variable (m : mesh).
Variables (ite : St -> Z) (init : Z -> res (Ops * St)) (wsol : Ops -> string -> St -> list fsop) (rres : Ops -> string -> disk -> St -> res St)
  (stepK stepT : Ops -> St -> res St) (write : ioconf -> Ops -> St -> disk -> res (list fsop * X)) (good : Ops -> St -> Prop).
Definition p_main (fuel : nat) (conf : ioconf) (d : disk) : res (option (St * disk * list X)) :=
  do (ops, s0) <- init (c_nstart conf);
  let d1 := run_ops (f_init_ops m conf) d in
  do (s1, w) <- io_initial_with ite (wsol ops) (rres ops) conf s0 d1;
  pure_loop ite (write conf ops) fuel conf (stepT ops) s1 (run_ops w d1).
Definition p_all (fuel : nat) (conf : ioconf) (d : disk) : outcome St X :=
  match init (c_nstart conf) with
  | Ok (ops, s0) =>
      let d1 := run_ops (f_init_ops m conf) d in
      match io_initial_with ite (wsol ops) (rres ops) conf s0 d1 with
      | Ok (s1, w) => loop_all fuel ite conf (stepK ops) (write conf ops) s1 (run_ops w d1)
      | e => stop e d1
      end
  | e => stop e d
  end.
Hypothesis (Hinit : forall n ops s0, init n = Ok (ops, s0) -> ite s0 = n).
Hypothesis (Hrite : forall ops p d s s', rres ops p d s = Ok s' -> ite s' = ite s).
Hypothesis (Hite : forall ops s s', stepT ops s = Ok s' -> ite s' = (ite s + 1)%Z).
Hypothesis (Hok : forall ops s s', stepK ops s = Ok s' <-> stepT ops s = Ok s' /\ good ops s).
Hypothesis (Hbad : forall ops s, is_ok (stepT ops s) -> good ops s \/ ~ good ops s /\ stepK ops s = Err PETSC_ERR_CONV_FAILED).
Hypothesis (Hw : forall conf n ops s d, write (with_nt conf n) ops s d = write conf ops s d).

Lemma p_split fuel conf d ops s0 s2 d2 tr : init (c_nstart conf) = Ok (ops, s0) -> p_main fuel conf d = Ok (Some (s2, d2, tr)) ->
  p_all fuel conf d = (Ok (Some s2), d2, tr) /\
    (forall k sk dk trk, (0 <= k < c_nt conf)%Z -> p_main fuel (with_nt conf k) d = Ok (Some (sk, dk, trk)) -> good ops sk) \/
  exists k sk dk trk rest, (0 <= k < c_nt conf)%Z /\ p_all fuel conf d = (Err PETSC_ERR_CONV_FAILED, dk, trk) /\
    p_main fuel (with_nt conf k) d = Ok (Some (sk, dk, trk)) /\ ~ good ops sk /\ tr = (trk ++ rest)%list.
Proof.
  intros HI H. unfold p_all. unfold p_main in H. rewrite HI in *. cbn [bind] in H. cbv zeta in *. apply bind_ok_inv in H. destruct H as ([s1 w] & EIO & H).
  rewrite EIO. assert (EM : forall k, p_main fuel (with_nt conf k) d = pure_loop ite (write conf ops) fuel (with_nt conf k) (stepT ops) s1 (run_ops w (run_ops (f_init_ops m conf) d))).
  { intros k. unfold p_main. change (c_nstart (with_nt conf k)) with (c_nstart conf). rewrite HI. cbn [bind]. cbv zeta.
    change (f_init_ops m (with_nt conf k)) with (f_init_ops m conf). change (io_initial_with ite (wsol ops) (rres ops) (with_nt conf k)) with (io_initial_with ite (wsol ops) (rres ops) conf).
    rewrite EIO. cbn [bind]. apply pure_loop_write. intros. apply Hw. }
  assert (Hi : ite s1 = c_nstart conf).
  { rewrite <- (Hinit _ _ _ HI). unfold io_initial_with in EIO. destruct (ite s0 =? 0)%Z; [injection EIO as <- _; reflexivity|].
    apply bind_ok_inv in EIO. destruct EIO as (s' & ER & EIO). injection EIO as <- _. eapply Hrite; exact ER. }
  destruct (loop_split ite (write conf ops) (stepK ops) (stepT ops) (good ops) (Hok ops) (Hite ops) (Hbad ops) _ _ _ _ _ _ _ H) as [[El G]|(k & sk & dk & trk & rest & Hk & El & Hp & Hn & ->)].
  - left. split; [exact El|]. intros k sk dk trk Hk Hp. rewrite EM in Hp. apply (G k sk dk trk); [lia|exact Hp].
  - right. exists k, sk, dk, trk, rest. split; [lia|]. split; [exact El|]. rewrite EM. auto.
Qed.
End Prog.
Lemma f_drive_pure {St} fuel ite conf (step : St -> res St) w s d : f_drive fuel ite conf step w s d = pure_loop ite w fuel conf step s d.
Proof.
  revert s d. induction fuel as [|f IH]; intros s d; cbn [f_drive pure_loop]; destruct (ite s >=? c_nstart conf + c_nt conf)%Z; auto.
  destruct (step s) as [s'| |]; cbn [bind]; auto. destruct (w s' d) as [[o x]| |]; cbn [bind]; auto. now rewrite IH.
Qed.

Section Ib.
Variables (m : mesh) (D : dec) (P : nspar) (types : Z -> Z -> bctype) (values : Z -> Z -> R) (name : string) (bodies : list (body * list (list R))) (t0 : R) (U0 p0 : vec).
Variables (conv : boundary -> vec -> res vec) (kv kp : ksp) (conf : ioconf) (fuel : nat) (d : disk).

Lemma ib_split mon IO s0 s2 d2 tr : ib_init m D P types values name bodies t0 (c_nstart conf) U0 p0 = Ok (IO, s0) ->
  let main n := ib_main fuel (with_nt conf n) m D P types values name bodies t0 U0 p0 mon conv (returned kv) (returned kp) d in
  let out := ib_main_all fuel conf m D P types values name bodies t0 U0 p0 mon conv kv kp d in
  main (c_nt conf) = Ok (Some (s2, d2, tr)) ->
  out = (Ok (Some s2), d2, tr) /\ (forall k sk dk trk, (0 <= k < c_nt conf)%Z -> main k = Ok (Some (sk, dk, trk)) -> ib_step_converged m D P IO conv kv kp sk) \/
  exists k sk dk trk rest, (0 <= k < c_nt conf)%Z /\ out = (Err PETSC_ERR_CONV_FAILED, dk, trk) /\ main k = Ok (Some (sk, dk, trk)) /\
    ~ ib_step_converged m D P IO conv kv kp sk /\ tr = (trk ++ rest)%list.
Proof.
  intros HI main out H.
  assert (EM : forall n, main n = p_main m s_ite (fun n => ib_init m D P types values name bodies t0 n U0 p0) (fun IO => ib_write_solution m D IO) (fun IO => ib_read_restart m D IO (n_forces m bodies))
     (fun IO => ib_advance m D P IO conv (returned kv) (returned kp)) (fun conf IO => ib_write conf m D IO bodies mon) fuel (with_nt conf n) d).
  { intros n. unfold main, ib_main, p_main. f_equal. apply functional_extensionality. intros [IO' s']. cbv zeta. f_equal. apply functional_extensionality. intros [s1 w]. apply f_drive_pure. }
  rewrite EM, with_nt_same in H.
  destruct (p_split m s_ite (fun n => ib_init m D P types values name bodies t0 n U0 p0) (fun IO => ib_write_solution m D IO) (fun IO => ib_read_restart m D IO (n_forces m bodies))
    (fun IO => ib_advance_ksp m D P IO conv kv kp) (fun IO => ib_advance m D P IO conv (returned kv) (returned kp)) (fun conf IO => ib_write conf m D IO bodies mon) (fun IO => ib_step_converged m D P IO conv kv kp)
    ltac:(intros n ? ? E; exact (proj1 (c_init_any m D P types values name bodies t0 U0 p0 n _ _ E))) ltac:(intros ? ? ? ? ? E; exact (c_rite m D bodies _ _ _ _ _ E))
    ltac:(intros ? ? ? E; exact (c_ite m D P conv (returned kv) (returned kp) _ _ _ E))
    ltac:(intros O s s'; exact (ksp_step_ok (ib_n O) m D P (ib_ns O) (rhs_velocity (ib_n O) m D P (ib_ns O) conv) (ib_assembleRHSPoisson m D P O) kv kp s s'))
    ltac:(intros O s; exact (ksp_step_cases (ib_n O) m D P (ib_ns O) (rhs_velocity (ib_n O) m D P (ib_ns O) conv) (ib_assembleRHSPoisson m D P O) kv kp s))
    ltac:(reflexivity) fuel conf d IO s0 s2 d2 tr HI H) as [[El G]|(k & sk & dk & trk & rest & Hk & El & Hp & Hn & Ht)].
  - left. split; [exact El|]. intros k sk dk trk Hk Hp. rewrite EM in Hp. exact (G k sk dk trk Hk Hp).
  - right. exists k, sk, dk, trk, rest. rewrite EM. auto.
Qed.

Lemma d_split kf mon OX x0 s2 d2 tr : d_init m D P types values name bodies t0 (c_nstart conf) U0 p0 = Ok (OX, x0) ->
  let main n := d_main fuel (with_nt conf n) m D P types values name bodies t0 U0 p0 mon conv (returned kv) (returned kp) (returned kf) d in
  let out := d_main_all fuel conf m D P types values name bodies t0 U0 p0 mon conv kv kp kf d in
  let good := d_step_converged m D P (fst OX) (snd OX) (n_forces m bodies) conv (d_assembleRHSForces m (snd OX)) kv kp kf in
  main (c_nt conf) = Ok (Some (s2, d2, tr)) ->
  out = (Ok (Some s2), d2, tr) /\ (forall k sk dk trk, (0 <= k < c_nt conf)%Z -> main k = Ok (Some (sk, dk, trk)) -> good sk) \/
  exists k sk dk trk rest, (0 <= k < c_nt conf)%Z /\ out = (Err PETSC_ERR_CONV_FAILED, dk, trk) /\ main k = Ok (Some (sk, dk, trk)) /\
    ~ good sk /\ tr = (trk ++ rest)%list.
Proof.
  intros HI main out good H.
  assert (EM : forall n, main n = p_main m x_ite (fun n => d_init m D P types values name bodies t0 n U0 p0) (fun _ => d_write_solution m D) (fun _ => d_read_restart m D (n_forces m bodies))
     (fun OX => d_advance m D P (fst OX) (snd OX) (n_forces m bodies) conv (d_assembleRHSForces m (snd OX)) (returned kv) (returned kp) (returned kf)) (fun conf _ => d_write conf m D bodies mon) fuel (with_nt conf n) d).
  { intros n. unfold main, d_main, p_main. f_equal. apply functional_extensionality. intros [IO' s']. cbv zeta. f_equal. apply functional_extensionality. intros [s1 w]. apply f_drive_pure. }
  rewrite EM, with_nt_same in H.
  destruct (p_split m x_ite (fun n => d_init m D P types values name bodies t0 n U0 p0) (fun _ => d_write_solution m D) (fun _ => d_read_restart m D (n_forces m bodies))
    (fun OX => d_advance_ksp m D P (fst OX) (snd OX) (n_forces m bodies) conv (d_assembleRHSForces m (snd OX)) kv kp kf)
    (fun OX => d_advance m D P (fst OX) (snd OX) (n_forces m bodies) conv (d_assembleRHSForces m (snd OX)) (returned kv) (returned kp) (returned kf)) (fun conf _ => d_write conf m D bodies mon)
    (fun OX => d_step_converged m D P (fst OX) (snd OX) (n_forces m bodies) conv (d_assembleRHSForces m (snd OX)) kv kp kf)
    ltac:(intros n ? ? E; exact (proj1 (e_init_any m D P types values name bodies t0 U0 p0 n _ _ E))) ltac:(intros ? ? ? ? ? E; exact (e_rite m D (n_forces m bodies) _ _ _ _ E))
    ltac:(intros ? ? ? E; exact (e_ite m D P conv (returned kv) (returned kp) _ _ _ _ _ _ _ E))
    ltac:(intros O s s'; apply d_ksp_step_ok) ltac:(intros O s; apply d_ksp_step_cases)
    ltac:(reflexivity) fuel conf d OX x0 s2 d2 tr HI H) as [[El G]|(k & sk & dk & trk & rest & Hk & El & Hp & Hn & Ht)].
  - left. split; [exact El|]. intros k sk dk trk Hk Hp. rewrite EM in Hp. exact (G k sk dk trk Hk Hp).
  - right. exists k, sk, dk, trk, rest. rewrite EM. auto.
Qed.

Section Moving.
Variables (mo : motion) (kf : mat -> ksp) (O : nsops).
Lemma r_ksp_step_ok s s' : r_advance_ksp m D P O name mo conv kv kp kf s = Ok s' <->
  r_advance m D P O name mo conv (returned kv) (returned kp) (fun A => returned (kf A)) s = Ok s' /\ r_step_converged m D P O name mo conv kv kp kf s.
Proof.
  unfold r_advance_ksp, r_advance, r_step_converged. destruct (moveBodies m D P O name mo (s_t (x_ns (r_x s)) + p_dt P) s) as [s1| |]; cbn [bind]; [|split; [discriminate|intros []; discriminate]..].
  split.
  - intros H. apply bind_ok_inv in H. destruct H as (x & Ex & H). apply d_ksp_step_ok in Ex. destruct Ex as [-> G]. cbn [bind]. split; [exact H|]. intros ? E. injection E as <-. exact G.
  - intros [H G]. apply bind_ok_inv in H. destruct H as (x & Ex & H). specialize (G _ eq_refl).
    assert (E : d_advance_ksp m D P O (r_ops s1) (n_forces m (r_bodies s1)) conv (r_assembleRHSForces m (r_ops s1) (r_UB s1)) kv kp (kf (r_solver s1)) (r_x s1) = Ok x) by (apply d_ksp_step_ok; auto).
    rewrite E. exact H.
Qed.
Lemma r_ksp_step_cases s : is_ok (r_advance m D P O name mo conv (returned kv) (returned kp) (fun A => returned (kf A)) s) ->
  r_step_converged m D P O name mo conv kv kp kf s \/ ~ r_step_converged m D P O name mo conv kv kp kf s /\ r_advance_ksp m D P O name mo conv kv kp kf s = Err PETSC_ERR_CONV_FAILED.
Proof.
  intros [s' Hs]. revert Hs. unfold r_advance_ksp, r_advance, r_step_converged. destruct (moveBodies m D P O name mo (s_t (x_ns (r_x s)) + p_dt P) s) as [s1| |]; cbn [bind]; [|discriminate..].
  intros H. apply bind_ok_inv in H. destruct H as (x & Ex & _).
  destruct (d_ksp_step_cases m D P O (r_ops s1) (n_forces m (r_bodies s1)) conv (r_assembleRHSForces m (r_ops s1) (r_UB s1)) kv kp (kf (r_solver s1)) (r_x s1)) as [G|[G E]].
  - eexists. exact Ex.
  - left. intros ? E. injection E as <-. exact G.
  - right. rewrite E. split; [intros G'; apply G; now apply G'|reflexivity].
Qed.
End Moving.

Lemma r_split mo kf mon O s0 s2 d2 tr : r_init m D P types values name bodies t0 (c_nstart conf) U0 p0 = Ok (O, s0) ->
  let main n := r_main fuel (with_nt conf n) m D P types values name bodies mo t0 U0 p0 mon conv (returned kv) (returned kp) (fun A => returned (kf A)) d in
  let out := r_main_all fuel conf m D P types values name bodies mo t0 U0 p0 mon conv kv kp kf d in
  let good := r_step_converged m D P O name mo conv kv kp kf in
  main (c_nt conf) = Ok (Some (s2, d2, tr)) ->
  out = (Ok (Some s2), d2, tr) /\ (forall k sk dk trk, (0 <= k < c_nt conf)%Z -> main k = Ok (Some (sk, dk, trk)) -> good sk) \/
  exists k sk dk trk rest, (0 <= k < c_nt conf)%Z /\ out = (Err PETSC_ERR_CONV_FAILED, dk, trk) /\ main k = Ok (Some (sk, dk, trk)) /\
    ~ good sk /\ tr = (trk ++ rest)%list.
Proof.
  intros HI main out good H.
  assert (EM : forall n, main n = p_main m r_ite (fun n => r_init m D P types values name bodies t0 n U0 p0) (fun _ path s => d_write_solution m D path (r_x s)) (fun _ => r_read_restart m D)
     (fun O => r_advance m D P O name mo conv (returned kv) (returned kp) (fun A => returned (kf A))) (fun conf _ => r_write_all conf m D mon) fuel (with_nt conf n) d).
  { intros n. unfold main, r_main, p_main. f_equal. apply functional_extensionality. intros [IO' s']. cbv zeta. f_equal. apply functional_extensionality. intros [s1 w]. apply f_drive_pure. }
  rewrite EM, with_nt_same in H.
  destruct (p_split m r_ite (fun n => r_init m D P types values name bodies t0 n U0 p0) (fun _ path s => d_write_solution m D path (r_x s)) (fun _ => r_read_restart m D)
    (fun O => r_advance_ksp m D P O name mo conv kv kp kf) (fun O => r_advance m D P O name mo conv (returned kv) (returned kp) (fun A => returned (kf A))) (fun conf _ => r_write_all conf m D mon)
    (fun O => r_step_converged m D P O name mo conv kv kp kf)
    ltac:(intros n O' ? E; destruct (proj1 (v_init_any m D P types values name bodies t0 U0 p0 n _ _ E)) as (X' & x0' & E' & ->);
          exact (proj1 (e_init_any m D P types values name bodies t0 U0 p0 n _ _ E')))
    ltac:(intros ? ? ? ? ? E; apply v_read_inv in E; exact (e_rite _ _ _ _ _ _ _ (proj1 E)))
    ltac:(intros ? ? ? E; exact (proj1 (v_ite m D P name conv (returned kv) (returned kp) mo (fun A => returned (kf A)) _ _ _ E)))
    ltac:(intros O' s s'; apply r_ksp_step_ok) ltac:(intros O' s; apply r_ksp_step_cases)
    ltac:(reflexivity) fuel conf d O s0 s2 d2 tr HI H) as [[El G]|(k & sk & dk & trk & rest & Hk & El & Hp & Hn & Ht)].
  - left. split; [exact El|]. intros k sk dk trk Hk Hp. rewrite EM in Hp. exact (G k sk dk trk Hk Hp).
  - right. exists k, sk, dk, trk, rest. rewrite EM. auto.
Qed.
End Ib.
