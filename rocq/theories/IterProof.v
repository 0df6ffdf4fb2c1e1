(** Proofs about the iterations file. *)
From Coq Require Import String ZifyBool.
From Verif Require Import Prelude ZSum RSum TypesModel GridModel IndexModel IndexSpec BoundaryModel OperatorModel OperatorSpec MatModel BnModel
  NSModel NSSpec NSProof NameModel DriverModel BodyModel DeltaModel IbpmModel IbpmSpec IbOutModel IbOutDrive LinModel LinSpec LinProof IterModel ResidualSpec IterSpec.
Local Open Scope R_scope.

Lemma rksp_cases k g b : rksp_solve k g b = Ok (answer k g b, told k g b) /\ ksp_solve (bare k) g b = Ok (answer k g b) \/
  rksp_solve k g b = Err PETSC_ERR_CONV_FAILED /\ ksp_solve (bare k) g b = Err PETSC_ERR_CONV_FAILED.
Proof.
  unfold rksp_solve, ksp_solve, answer, returned, told, bare. destruct (k g b) as [[y r] rep]. cbn [fst snd]. destruct (Z.ltb_spec r 0); auto.
Qed.

Ltac same := intros Esame; first [discriminate Esame | injection Esame as <-; reflexivity].

Section Loop.
Variables (St : Type) (ite : St -> Z) (conf : ioconf) (stepR : St * reports -> res (St * reports)) (step kstep : St -> res St)
  (ln : Z -> reports -> line) (rep : St -> St -> list report -> Prop).
Hypothesis Hok : forall s K s2 K2, stepR (s, K) = Ok (s2, K2) -> step s = Ok s2 /\ ite s2 = (ite s + 1)%Z /\
  l_step (ln (ite s2) K2) = ite s2 /\ rep s s2 (l_reports (ln (ite s2) K2)).
Hypothesis Herr : forall s K e, stepR (s, K) = Err e -> kstep s = Err e.

Lemma loop_describes fuel : forall s K file r lines, report_loop fuel ite conf stepR ln (s, K) file = (r, lines) ->
  (ite s <= c_nstart conf + Z.max 0 (c_nt conf))%Z ->
  exists more, lines = (file ++ more)%list /\
  (forall j l, nth_error more j = Some l -> exists s1 s2, run_steps step j s = Ok s1 /\ step s1 = Ok s2 /\ l_step l = (ite s + Z.of_nat j + 1)%Z /\ rep s1 s2 (l_reports l)) /\
  (ite s + lenZ more <= c_nstart conf + Z.max 0 (c_nt conf))%Z /\
  (forall s2, r = Ok (Some s2) -> (ite s + lenZ more >= c_nstart conf + c_nt conf)%Z /\ run_steps step (length more) s = Ok s2) /\
  (forall e, r = Err e -> exists s1, run_steps step (length more) s = Ok s1 /\ kstep s1 = Err e).
Proof.
  induction fuel as [|fuel IH]; intros s K file r lines H Hi; cbn [report_loop fst] in H; destruct (Z.geb_spec (ite s) (c_nstart conf + c_nt conf)).
  1,3: injection H as <- <-; exists []; rewrite app_nil_r; unfold lenZ; cbn [length run_steps];
       (split; [reflexivity|]); (split; [intros [|j] l E; discriminate|]); (split; [lia|]); split; [intros s2 E; injection E as <-; split; [lia|reflexivity]|discriminate].
  - injection H as <- <-. exists []. rewrite app_nil_r. unfold lenZ. cbn [length]. split; [reflexivity|]. split; [intros [|j] l E; discriminate|]. split; [lia|]. split; discriminate.
  - destruct (stepR (s, K)) as [[s2 K2]|e|] eqn:E.
    2: { injection H as <- <-. exists []. rewrite app_nil_r. unfold lenZ. cbn [length run_steps]. split; [reflexivity|]. split; [intros [|j] l E'; discriminate|]. split; [lia|].
         split; [discriminate|]. intros e' E'. injection E' as <-. exists s. split; [reflexivity|]. exact (Herr _ _ _ E). }
    2: { injection H as <- <-. exists []. rewrite app_nil_r. unfold lenZ. cbn [length]. split; [reflexivity|]. split; [intros [|j] l E'; discriminate|]. split; [lia|]. split; discriminate. }
    cbn [fst snd] in H. destruct (Hok _ _ _ _ E) as (Hs & Hit & Hl & Hr).
    destruct (IH _ _ _ _ _ H) as (more & EL & A & B & C & F); [lia|]. exists (ln (ite s2) K2 :: more). rewrite <- app_assoc in EL. split; [exact EL|].
    assert (L : lenZ (ln (ite s2) K2 :: more) = (lenZ more + 1)%Z) by (unfold lenZ; cbn [length]; lia).
    split; [|split; [|split]].
    + intros [|j] l Hj; cbn [nth_error] in Hj.
      * injection Hj as <-. exists s, s2. split; [reflexivity|]. split; [exact Hs|]. split; [lia|exact Hr].
      * destruct (A _ _ Hj) as (a & b & R1 & R2 & R3 & R4). exists a, b. rewrite run_front, Hs. cbn [bind]. split; [exact R1|]. split; [exact R2|]. split; [lia|exact R4].
    + lia.
    + intros s' E'. destruct (C _ E') as [C1 C2]. split; [lia|]. cbn [length]. rewrite run_front, Hs. exact C2.
    + intros e E'. destruct (F _ E') as (s1 & F1 & F2). exists s1. cbn [length]. rewrite run_front, Hs. split; assumption.
Qed.

Lemma file_describes fuel s0 r lines : ite s0 = c_nstart conf -> iterations_file fuel ite conf stepR ln s0 = (r, lines) ->
  describes step kstep rep conf s0 r lines.
Proof.
  intros Hi H. destruct (loop_describes _ _ _ _ _ _ H) as (more & -> & A & B & C & F); [lia|]. cbn [app]. unfold describes. rewrite Hi in *.
  split; [exact A|]. split; [lia|]. split; [|exact F]. intros s2 E. destruct (C _ E) as [C1 C2]. split; [unfold lenZ in *; lia|exact C2].
Qed.
End Loop.

Section Steps.
Variables (n : Z) (m : mesh) (D : dec) (P : nspar) (O : nsops) (rhs_v : nsstate -> res (vec * nsstate)) (rhs_p : vec -> boundary -> res vec) (kv kp : rksp).
Hypothesis Hv : forall s rhs s1, rhs_v s = Ok (rhs, s1) -> s_ite s1 = s_ite s /\ s_U s1 = s_U s /\ s_dP s1 = s_dP s.

Lemma rep_step_ok s K s2 K2 : advance_rep n m D P O rhs_v rhs_p kv kp (s, K) = Ok (s2, K2) ->
  advance_with n m D P O rhs_v rhs_p (answer kv) (answer kp) s = Ok s2 /\ s_ite s2 = (s_ite s + 1)%Z /\
  exists rhs1 s1 b, rhs_v (begun P s) = Ok (rhs1, s1) /\ rhs_p (answer kv (s_U s) rhs1) (s_bc s1) = Ok b /\ k_v K2 = told kv (s_U s) rhs1 /\ k_p K2 = told kp (s_dP s) b.
Proof.
  unfold advance_rep, advance_with. cbv zeta. fold (begun P s). destruct (rhs_v (begun P s)) as [[rhs1 s1]| |] eqn:E1; cbn [bind]; [|discriminate..].
  destruct (Hv _ _ _ E1) as (V1 & V2 & V3). cbn [begun s_ite s_U s_dP] in V1, V2, V3.
  destruct (rksp_cases kv (s_U s1) rhs1) as [[-> _]|[-> _]]; cbn [bind]; [|discriminate].
  destruct (rhs_p (answer kv (s_U s1) rhs1) (s_bc s1)) as [b| |] eqn:Eb; cbn [bind]; [|discriminate..].
  destruct (rksp_cases kp (s_dP s1) b) as [[-> _]|[-> _]]; cbn [bind]; [|discriminate].
  intros H. destruct (bc_call m D _ (s_bc s1)) as [B2| |]; cbn [bind] in *; [|discriminate..]. injection H as <- <-.
  split; [reflexivity|]. split; [exact V1|]. exists rhs1, s1, b. rewrite <- V2, <- V3. cbn [k_v k_p]. auto.
Qed.
Lemma rep_step_err s K e : advance_rep n m D P O rhs_v rhs_p kv kp (s, K) = Err e -> advance_ksp n m D P O rhs_v rhs_p (bare kv) (bare kp) s = Err e.
Proof.
  unfold advance_rep, advance_ksp. cbv zeta. fold (begun P s). destruct (rhs_v (begun P s)) as [[rhs1 s1]| |] eqn:E1; cbn [bind]; [|same..].
  destruct (rksp_cases kv (s_U s1) rhs1) as [[-> ->]|[-> ->]]; cbn [bind]; [|same].
  destruct (rhs_p (answer kv (s_U s1) rhs1) (s_bc s1)) as [b| |] eqn:Eb; cbn [bind]; [|same..].
  destruct (rksp_cases kp (s_dP s1) b) as [[-> ->]|[-> ->]]; cbn [bind]; [|same].
  destruct (bc_call m D _ (s_bc s1)) as [B2| |]; cbn [bind]; same.
Qed.
End Steps.

Lemma rhsvel_keeps n m D P ops conv s rhs s1 : rhs_velocity n m D P ops conv s = Ok (rhs, s1) -> s_ite s1 = s_ite s /\ s_U s1 = s_U s /\ s_dP s1 = s_dP s.
Proof. intros H. destruct (rhsvel_inv _ _ _ _ _ _ _ _ _ H) as (_ & _ & A & B & _ & C). auto. Qed.

Section Dec.
Variables (m : mesh) (D : dec) (P : nspar) (O : nsops) (X : dops) (nf : Z) (conv : boundary -> vec -> res vec) (rhs_f : vec -> vec) (kv kp kf : rksp).
Lemma d_rep_step_ok x K x2 K2 : d_advance_rep m D P O X nf conv rhs_f kv kp kf (x, K) = Ok (x2, K2) ->
  d_advance m D P O X nf conv rhs_f (answer kv) (answer kp) (answer kf) x = Ok x2 /\ s_ite (x_ns x2) = (s_ite (x_ns x) + 1)%Z /\
  d_step_reports m D P O X nf conv rhs_f kv kp kf x (k_v K2) (k_p K2) (k_f K2).
Proof.
  unfold d_advance_rep, d_advance, d_step_reports. cbv zeta. fold (begun P (x_ns x)).
  destruct (d_assembleRHSVelocity m D P O X nf conv (x_f x) (begun P (x_ns x))) as [[rhs1 s1]| |] eqn:E1; cbn [bind]; [|discriminate..].
  assert (V : s_ite s1 = (s_ite (x_ns x) + 1)%Z /\ s_U s1 = s_U (x_ns x) /\ s_dP s1 = s_dP (x_ns x)).
  { unfold d_assembleRHSVelocity in E1. apply bind_ok_inv in E1. destruct E1 as ([r0 s1'] & E1 & E). injection E as _ <-. exact (rhsvel_keeps _ _ _ _ _ _ _ _ _ E1). }
  destruct V as (V1 & V2 & V3).
  destruct (rksp_cases kv (s_U s1) rhs1) as [[-> _]|[-> _]]; cbn [bind]; [|discriminate].
  set (U1 := answer kv (s_U s1) rhs1).
  destruct (rksp_cases kf (x_df x) (rhs_f U1)) as [[-> _]|[-> _]]; cbn [bind]; [|discriminate].
  destruct (assembleRHSPoisson m D P O _ (s_bc s1)) as [b| |] eqn:Eb; cbn [bind]; [|discriminate..].
  destruct (rksp_cases kp (s_dP s1) b) as [[-> _]|[-> _]]; cbn [bind]; [|discriminate].
  intros H. destruct (bc_call m D _ (s_bc s1)) as [B2| |]; cbn [bind] in *; [|discriminate..]. injection H as <- <-.
  split; [reflexivity|]. split; [exact V1|]. exists rhs1, s1, b. rewrite <- V2, <- V3. cbn [k_v k_p k_f]. auto.
Qed.
Lemma d_rep_step_err x K e : d_advance_rep m D P O X nf conv rhs_f kv kp kf (x, K) = Err e ->
  d_advance_ksp m D P O X nf conv rhs_f (bare kv) (bare kp) (bare kf) x = Err e.
Proof.
  unfold d_advance_rep, d_advance_ksp. cbv zeta. fold (begun P (x_ns x)).
  destruct (d_assembleRHSVelocity m D P O X nf conv (x_f x) (begun P (x_ns x))) as [[rhs1 s1]| |] eqn:E1; cbn [bind]; [|same..].
  destruct (rksp_cases kv (s_U s1) rhs1) as [[-> ->]|[-> ->]]; cbn [bind]; [|same].
  set (U1 := answer kv (s_U s1) rhs1).
  destruct (rksp_cases kf (x_df x) (rhs_f U1)) as [[-> ->]|[-> ->]]; cbn [bind]; [|same].
  destruct (assembleRHSPoisson m D P O _ (s_bc s1)) as [b| |] eqn:Eb; cbn [bind]; [|same..].
  destruct (rksp_cases kp (s_dP s1) b) as [[-> ->]|[-> ->]]; cbn [bind]; [|same].
  destruct (bc_call m D _ (s_bc s1)) as [B2| |]; cbn [bind]; same.
Qed.
End Dec.

Section Moving.
Variables (m : mesh) (D : dec) (P : nspar) (O : nsops) (name : string) (mo : motion) (conv : boundary -> vec -> res vec) (kv kp : rksp) (kf : mat -> rksp).
Lemma r_rep_step_ok s K s2 K2 : r_advance_rep m D P O name mo conv kv kp kf (s, K) = Ok (s2, K2) ->
  r_advance m D P O name mo conv (answer kv) (answer kp) (fun A => answer (kf A)) s = Ok s2 /\ s_ite (x_ns (r_x s2)) = (s_ite (x_ns (r_x s)) + 1)%Z /\
  d_step_reports m D P O (r_ops s2) (n_forces m (r_bodies s2)) conv (r_assembleRHSForces m (r_ops s2) (r_UB s2)) kv kp (kf (di_EBNH (r_ops s2))) (r_x s) (k_v K2) (k_p K2) (k_f K2).
Proof.
  unfold r_advance_rep, r_advance. destruct (moveBodies m D P O name mo (s_t (x_ns (r_x s)) + p_dt P) s) as [s1| |] eqn:E1; cbn [bind]; [|discriminate..].
  intros H. apply bind_ok_inv in H. destruct H as ([x K'] & Ex & H). injection H as <- <-. apply d_rep_step_ok in Ex. destruct Ex as (Ea & Ei & Er).
  assert (M : r_x s1 = r_x s /\ r_solver s1 = di_EBNH (r_ops s1)).
  { unfold moveBodies in E1. do 3 (apply bind_ok_inv in E1; destruct E1 as (? & ? & E1)). injection E1 as <-. split; reflexivity. }
  destruct M as [M1 M2]. rewrite Ea. cbn [bind r_x r_ops r_UB r_bodies]. rewrite M1 in Ei, Er. rewrite M2 in Er. auto.
Qed.
Lemma r_rep_step_err s K e : r_advance_rep m D P O name mo conv kv kp kf (s, K) = Err e ->
  r_advance_ksp m D P O name mo conv (bare kv) (bare kp) (fun A => bare (kf A)) s = Err e.
Proof.
  unfold r_advance_rep, r_advance_ksp. destruct (moveBodies m D P O name mo (s_t (x_ns (r_x s)) + p_dt P) s) as [s1| |] eqn:E1; cbn [bind]; [|same..].
  destruct (d_advance_rep _ _ _ _ _ _ _ _ _ _ _ _) as [[x K']|c|] eqn:E; cbn [bind]; [discriminate| |discriminate].
  intros Ec. injection Ec as <-. rewrite (d_rep_step_err _ _ _ _ _ _ _ _ _ _ _ _ _ _ E). reflexivity.
Qed.
End Moving.

Lemma sumR_term {A} (f : A -> R) l x : (forall y, 0 <= f y) -> In x l -> f x <= sumR f l.
Proof.
  intros Hf. induction l as [|y l IH]; cbn [In sumR]; [easy|]. pose proof (sumR_nonneg f l (fun z _ => Hf z)). pose proof (Hf y).
  intros [<-|Hx]; [lra|specialize (IH Hx); lra].
Qed.
Lemma squares_bound {A} (f : A -> R) l r x : 0 <= r -> sumR (fun y => f y * f y) l = r * r -> In x l -> Rabs (f x) <= r.
Proof.
  intros Hr Hs Hx. pose proof (sumR_term (fun y => f y * f y) l x (fun y => Rle_0_sqr (f y)) Hx) as Ht. cbv beta in Ht. rewrite Hs in Ht.
  rewrite <- (Rabs_pos_eq r Hr). apply Rsqr_le_abs_0. exact Ht.
Qed.

(** A step whose solves converge leaves reports. *)
Lemma rep_step_total n m D P O rhs_v rhs_p kv kp s s2 K : (forall g b, converged (bare kv) g b) -> (forall g b, converged (bare kp) g b) ->
  advance_with n m D P O rhs_v rhs_p (answer kv) (answer kp) s = Ok s2 -> exists K2, advance_rep n m D P O rhs_v rhs_p kv kp (s, K) = Ok (s2, K2).
Proof.
  intros Cv Cp. unfold advance_rep, advance_with. cbv zeta. fold (begun P s). destruct (rhs_v (begun P s)) as [[rhs1 s1]| |] eqn:E1; cbn [bind]; [|discriminate..].
  destruct (rksp_cases kv (s_U s1) rhs1) as [[-> _]|[_ F]]; cbn [bind].
  2: { destruct (ksp_cases (bare kv) (s_U s1) rhs1) as [[G _]|[_ G]]; [congruence|exfalso; apply G, Cv]. }
  destruct (rhs_p (answer kv (s_U s1) rhs1) (s_bc s1)) as [b| |] eqn:Eb; cbn [bind]; [|discriminate..].
  destruct (rksp_cases kp (s_dP s1) b) as [[-> _]|[_ F]]; cbn [bind].
  2: { destruct (ksp_cases (bare kp) (s_dP s1) b) as [[G _]|[_ G]]; [congruence|exfalso; apply G, Cp]. }
  destruct (bc_call m D _ (s_bc s1)) as [B2| |]; cbn [bind]; [|discriminate..]. intros H. injection H as <-. eexists. reflexivity.
Qed.

(** A component is not larger than the Euclidean norm. *)
Lemma norm_bound n v i : (0 <= i < n)%Z -> Rabs (v i) <= sqrt (norm2 n v).
Proof.
  intros Hi. assert (Q : v i * v i <= norm2 n v).
  { unfold norm2, zsum. apply (sumR_term (fun y => v y * v y)); [intros y; apply Rle_0_sqr|apply zrange_In; lia]. }
  rewrite <- sqrt_Rsqr_abs. apply sqrt_le_1_alt. exact Q.
Qed.

Lemma rksp_converged k g b : converged (bare k) g b -> rksp_solve k g b = Ok (answer k g b, told k g b).
Proof.
  intros C. destruct (rksp_cases k g b) as [[H _]|[_ F]]; [exact H|].
  destruct (ksp_cases (bare k) g b) as [[G _]|[_ G]]; [congruence|exfalso; exact (G C)].
Qed.
Lemma d_rep_step_total m D P O X nf conv rhs_f kv kp kf x x2 K :
  (forall g b, converged (bare kv) g b) -> (forall g b, converged (bare kp) g b) -> (forall g b, converged (bare kf) g b) ->
  d_advance m D P O X nf conv rhs_f (answer kv) (answer kp) (answer kf) x = Ok x2 -> exists K2, d_advance_rep m D P O X nf conv rhs_f kv kp kf (x, K) = Ok (x2, K2).
Proof.
  intros Cv Cp Cf. unfold d_advance_rep, d_advance. cbv zeta. fold (begun P (x_ns x)).
  destruct (d_assembleRHSVelocity m D P O X nf conv (x_f x) (begun P (x_ns x))) as [[rhs1 s1]| |]; cbn [bind]; [|discriminate..].
  rewrite (rksp_converged kv) by apply Cv. cbn [bind]. rewrite (rksp_converged kf) by apply Cf. cbn [bind].
  destruct (assembleRHSPoisson m D P O _ (s_bc s1)) as [b| |]; cbn [bind]; [|discriminate..].
  rewrite (rksp_converged kp) by apply Cp. cbn [bind].
  destruct (bc_call m D _ (s_bc s1)) as [B2| |]; cbn [bind]; [|discriminate..]. intros H. injection H as <-. eexists. reflexivity.
Qed.
Lemma r_rep_step_total m D P O name mo conv kv kp kf s s2 K :
  (forall g b, converged (bare kv) g b) -> (forall g b, converged (bare kp) g b) -> (forall A g b, converged (bare (kf A)) g b) ->
  r_advance m D P O name mo conv (answer kv) (answer kp) (fun A => answer (kf A)) s = Ok s2 -> exists K2, r_advance_rep m D P O name mo conv kv kp kf (s, K) = Ok (s2, K2).
Proof.
  intros Cv Cp Cf. unfold r_advance_rep, r_advance. destruct (moveBodies m D P O name mo (s_t (x_ns (r_x s)) + p_dt P) s) as [s1| |]; cbn [bind]; [|discriminate..].
  intros H. apply bind_ok_inv in H. destruct H as (x & Ex & H). injection H as <-.
  destruct (d_rep_step_total _ _ _ _ _ _ _ _ kv kp (kf (r_solver s1)) _ _ K Cv Cp (Cf _) Ex) as (K2 & ->). eexists. reflexivity.
Qed.

(** A loop whose steps never fail ends. *)
Lemma loop_ends {St} (ite : St -> Z) conf stepR ln (Q : St -> Prop) :
  (forall s K, Q s -> exists s2 K2, stepR (s, K) = Ok (s2, K2) /\ Q s2 /\ ite s2 = (ite s + 1)%Z) ->
  forall fuel s K file, Q s -> (c_nstart conf + c_nt conf <= ite s + Z.of_nat fuel)%Z -> exists s2 lines, report_loop fuel ite conf stepR ln (s, K) file = (Ok (Some s2), lines).
Proof.
  intros Hq. induction fuel as [|fuel IH]; intros s K file HQ Hf; cbn [report_loop fst]; destruct (Z.geb_spec (ite s) (c_nstart conf + c_nt conf)); try lia; [eauto|eauto|].
  destruct (Hq s K HQ) as (s2 & K2 & -> & HQ2 & Hi). cbn [fst snd]. apply IH; [exact HQ2|lia].
Qed.
