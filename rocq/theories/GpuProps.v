(** C90: the settings of the GPU linear solvers. *)
From Coq Require Import String Ascii ZifyBool.
From Verif Require Import Prelude ZSum TypesModel ConfigModel GpuModel GpuSpec GpuProof.
Local Open Scope string_scope.
Local Open Scope list_scope.

(** C90: a solver that the factory creates with a configuration file reads that
    file on every process and changes no file, in every order of the actions of
    the processes, whether or not AmgX makes them wait. *)
Theorem gpu_own_file : forall amgx load name y nm path sync n fs w,
  createLinSolver amgx load name y = Ok (Some (AmgX nm path)) -> path <> "None" ->
  moves n (amgx_init sync path) (before fs) w ->
  (forall g, w_files w g = fs g) /\
  (forall r, (0 <= r < n)%Z -> w_read w r = [] \/ w_read w r = [fs path]) /\
  (finished n (amgx_init sync path) w -> forall r, (0 <= r < n)%Z -> w_read w r = [fs path]).
Proof.
  intros * H Hn M. destruct (factory_path _ _ _ _ _ _ H) as [E|S]; [contradiction|]. pose proof (slash_not_tmp _ S) as Ht.
  destruct (own_inv sync path n fs Hn Ht w M) as [F G]. split; [now rewrite F|]. split.
  - intros r _. rewrite G. destruct (w_done w r); auto.
  - intros D r Hr. rewrite G, (D r Hr). rewrite (own_prog sync path Hn Ht). reflexivity.
Qed.
Print Assumptions gpu_own_file.

(** C90: without a configuration file, every process gets empty settings (the
    defaults of AmgX) and the temporary file is gone afterwards, in every order
    of the actions, if AmgX makes the processes wait for each other. *)
Theorem gpu_defaults : forall n fs w, moves n (amgx_init true "None") (before fs) w ->
  (forall g, g <> tmp_config -> w_files w g = fs g) /\
  (forall r, (0 <= r < n)%Z -> w_read w r = [] \/ w_read w r = [Some ""]) /\
  (finished n (amgx_init true "None") w -> (1 <= n)%Z -> w_files w tmp_config = None /\ forall r, (0 <= r < n)%Z -> w_read w r = [Some ""]).
Proof.
  intros n fs w M. destruct (sync_ok n fs w M) as (F & G & L & C). split; [exact F|]. split.
  - intros r _. rewrite G. destruct (w_done w r) as [|[|]]; auto.
  - intros D Hn. split.
    + destruct C as [[C _]|[_ C]]; [specialize (C 0%Z ltac:(lia)); rewrite D in C by lia; cbn in C; lia|]. apply (C 0%Z); [lia|]. apply D. lia.
    + intros r Hr. rewrite G, (D r Hr). reflexivity.
Qed.
Print Assumptions gpu_defaults.

(** C90: and on one process if it does not. *)
Theorem gpu_defaults_one_process : forall fs w, moves 1 (amgx_init false "None") (before fs) w ->
  (forall g, g <> tmp_config -> w_files w g = fs g) /\ (w_read w 0 = [] \/ w_read w 0 = [Some ""]) /\
  (finished 1 (amgx_init false "None") w -> w_files w tmp_config = None /\ w_read w 0 = [Some ""]).
Proof.
  intros fs w M. destruct (one_ok fs w M) as (F & L & G & C). split; [exact F|]. split.
  - rewrite G. destruct (w_done w 0%Z) as [|[|]]; auto.
  - intros D. specialize (D 0%Z ltac:(lia)). cbn in D. rewrite D in G, C. auto.
Qed.
Print Assumptions gpu_defaults_one_process.

(** C90, violated on several processes if AmgX does not make them wait: one may
    remove the temporary file before another reads it. *)
Theorem gpu_defaults_race_refuted : forall n fs, (2 <= n)%Z ->
  exists w, moves n (amgx_init false "None") (before fs) w /\ w_read w 1 = [None].
Proof. exact race. Qed.
Print Assumptions gpu_defaults_race_refuted.

(** C90: the processes never wait for ever. *)
Theorem gpu_creation_proceeds : forall sync config n fs w, (1 <= n)%Z -> moves n (amgx_init sync config) (before fs) w ->
  finished n (amgx_init sync config) w \/ exists w', move n (amgx_init sync config) w w'.
Proof. intros sync config n fs w Hn M. exact (progress n _ fs w Hn M). Qed.
Print Assumptions gpu_creation_proceeds.

(** A configuration with a GPU solver, and complete schedules of two processes. *)
Example gpu_case : forall fs,
  createLinSolver true (fun _ => true) "velocity" (Some (YMap [("directory", YScalar "/run"); ("parameters", YMap [("velocitySolver", YMap [("type", YScalar "GPU"); ("config", YScalar "amgx.info")])])]))
    = Ok (Some (AmgX "velocity" "/run/amgx.info")) /\
  (exists w, moves 2 (amgx_init true "None") (before fs) w /\ finished 2 (amgx_init true "None") w) /\
  (exists w, moves 2 (amgx_init true "/run/amgx.info") (before fs) w /\ finished 2 (amgx_init true "/run/amgx.info") w) /\
  (exists w, moves 1 (amgx_init false "None") (before fs) w /\ finished 1 (amgx_init false "None") w).
Proof.
  intros fs. split; [reflexivity|].
  assert (Go : forall n P w r a w', moves n P (before fs) w -> (0 <= r < n)%Z -> nth_error P (w_done w r) = Some a ->
    (a = Meet -> forall q, (0 <= q < n)%Z -> (w_done w r <= w_done w q)%nat) -> w' = perform a r w -> moves n P (before fs) w').
  { intros n P w r a w' M Hr Ha Hm ->. eapply moves_snoc; [exact M|]. now apply move_act. }
  assert (T : forall h : Z -> Prop, h 0%Z -> h 1%Z -> forall q, (0 <= q < 2)%Z -> h q) by (intros h H0 H1 q Hq; assert (q = 0 \/ q = 1)%Z as [->| ->] by lia; assumption).
  split; [|split].
  - assert (M0 : moves 2 (amgx_init true "None") (before fs) (before fs)) by apply moves_nil.
    assert (M1 := Go _ _ _ 0%Z (Create tmp_config) _ M0 ltac:(lia) eq_refl ltac:(first [discriminate|intros _; apply T; cbn; lia]) eq_refl).
    assert (M2 := Go _ _ _ 1%Z (Create tmp_config) _ M1 ltac:(lia) eq_refl ltac:(first [discriminate|intros _; apply T; cbn; lia]) eq_refl).
    assert (M3 := Go _ _ _ 0%Z (Load tmp_config) _ M2 ltac:(lia) eq_refl ltac:(first [discriminate|intros _; apply T; cbn; lia]) eq_refl).
    assert (M4 := Go _ _ _ 1%Z (Load tmp_config) _ M3 ltac:(lia) eq_refl ltac:(first [discriminate|intros _; apply T; cbn; lia]) eq_refl).
    assert (M5 := Go _ _ _ 0%Z Meet _ M4 ltac:(lia) eq_refl ltac:(first [discriminate|intros _; apply T; cbn; lia]) eq_refl).
    assert (M6 := Go _ _ _ 1%Z Meet _ M5 ltac:(lia) eq_refl ltac:(first [discriminate|intros _; apply T; cbn; lia]) eq_refl).
    assert (M7 := Go _ _ _ 0%Z (Remove tmp_config) _ M6 ltac:(lia) eq_refl ltac:(first [discriminate|intros _; apply T; cbn; lia]) eq_refl).
    assert (M8 := Go _ _ _ 1%Z (Remove tmp_config) _ M7 ltac:(lia) eq_refl ltac:(first [discriminate|intros _; apply T; cbn; lia]) eq_refl).
    eexists. split; [exact M8|]. refine (T (fun q => _ q = _) _ _); reflexivity.
  - assert (M0 : moves 2 (amgx_init true "/run/amgx.info") (before fs) (before fs)) by apply moves_nil.
    assert (M1 := Go _ _ _ 0%Z (Load "/run/amgx.info") _ M0 ltac:(lia) eq_refl ltac:(first [discriminate|intros _; apply T; cbn; lia]) eq_refl).
    assert (M2 := Go _ _ _ 1%Z (Load "/run/amgx.info") _ M1 ltac:(lia) eq_refl ltac:(first [discriminate|intros _; apply T; cbn; lia]) eq_refl).
    assert (M3 := Go _ _ _ 0%Z Meet _ M2 ltac:(lia) eq_refl ltac:(first [discriminate|intros _; apply T; cbn; lia]) eq_refl).
    assert (M4 := Go _ _ _ 1%Z Meet _ M3 ltac:(lia) eq_refl ltac:(first [discriminate|intros _; apply T; cbn; lia]) eq_refl).
    eexists. split; [exact M4|]. refine (T (fun q => _ q = _) _ _); reflexivity.
  - assert (M0 : moves 1 (amgx_init false "None") (before fs) (before fs)) by apply moves_nil.
    assert (M1 := Go _ _ _ 0%Z (Create tmp_config) _ M0 ltac:(lia) eq_refl ltac:(first [discriminate|intros _; apply T; cbn; lia]) eq_refl).
    assert (M2 := Go _ _ _ 0%Z (Load tmp_config) _ M1 ltac:(lia) eq_refl ltac:(first [discriminate|intros _; apply T; cbn; lia]) eq_refl).
    assert (M3 := Go _ _ _ 0%Z (Remove tmp_config) _ M2 ltac:(lia) eq_refl ltac:(first [discriminate|intros _; apply T; cbn; lia]) eq_refl).
    eexists. split; [exact M3|]. intros r Hr. assert (r = 0%Z) as -> by lia. reflexivity.
Qed.
