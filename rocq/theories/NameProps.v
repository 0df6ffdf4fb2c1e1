(** C41, C42: step names and the XDMF index. *)
From Coq Require Import String ZifyBool.
From Verif Require Import Prelude RSum ZSum TypesModel GridModel GridSpec IndexModel IndexSpec BoundaryModel BoundarySpec OperatorModel OperatorSpec MatModel NSModel NSSpec
  NameModel NameSpec NameProof DriverModel DriverSpec DriverProof DriveProof RestartProof RunProof.
Local Open Scope Z_scope.

(** C41. Different steps have different file names. *)
Theorem step_names_unique : forall out n k, 0 <= n -> 0 <= k -> solution_path out n = solution_path out k -> n = k.
Proof. exact solution_path_inj. Qed.
Print Assumptions step_names_unique.
(** C41. The name is the number, read back in base ten, on at least 7 digits. *)
Theorem step_names_read_back : forall n, 0 <= n -> val (step_name n) 0 = n /\ all_digits (step_name n) /\ (7 <= String.length (step_name n))%nat.
Proof.
  intros n Hn. split; [now apply step_name_val|]. split; [now apply step_name_digits|].
  unfold step_name, pad7. rewrite str_len_app, zeros_len. lia.
Qed.
Print Assumptions step_names_read_back.
(** C41. Below 10^7 the names sort in step order. *)
Theorem step_names_sorted : forall n k, 0 <= n < k -> k < 10 ^ 7 -> str_lt (step_name n) (step_name k).
Proof. exact step_name_order. Qed.
Print Assumptions step_names_sorted.
(** Beyond, they do not: step 10^7 sorts before step 9999999. *)
Theorem step_names_sorted_beyond_refuted : exists n k, 0 <= n < k /\ str_lt (step_name k) (step_name n).
Proof. exists 9999999, 10000000. split; [lia|]. cbv. left. lia. Qed.
Print Assumptions step_names_sorted_beyond_refuted.
(** C41. The XDMF tool refers to the file names of the solver. *)
Theorem xdmf_names_agree : forall out name n, 0 <= n -> fst (xdmf_entry out name n) = solution_path out n.
Proof. intros out name n Hn. unfold xdmf_entry, solution_path. cbn [fst]. now rewrite <- printf_agrees. Qed.
Print Assumptions xdmf_names_agree.
(** For negative steps they differ. *)
Theorem xdmf_names_negative_refuted : exists out name n, fst (xdmf_entry out name n) <> solution_path out n.
Proof. exists "o"%string, "u"%string, (-12). cbv. discriminate. Qed.
Print Assumptions xdmf_names_negative_refuted.

(** C42. When the start step is a multiple of nsave, the default list is exactly
    the saved steps, each once. *)
Theorem xdmf_default_lists_saved : forall fuel start nt nsave l, 0 < nsave -> (nsave | start) ->
  xdmf_default fuel start nt nsave = Some l -> NoDup l /\ forall t, In t l <-> start <= t <= start + nt /\ (nsave | t).
Proof.
  intros fuel start nt nsave l Hs Hd H. destruct (xdmf_ends _ _ _ _ _ Hs H) as [I N]. split; [exact N|]. intros t. rewrite I.
  split; intros [Ht X]; (split; [exact Ht|]).
  - replace t with ((t - start) + start) by lia. now apply Z.divide_add_r.
  - now apply Z.divide_sub_r.
Qed.
Print Assumptions xdmf_default_lists_saved.
(** C42. The loop ends. *)
Theorem xdmf_loop_ends : forall start nt nsave, 0 < nsave -> exists fuel l, xdmf_default fuel start nt nsave = Some l.
Proof.
  intros start nt nsave Hs. exists (S (Z.to_nat nt)). apply xdmf_terminates; lia.
Qed.
Print Assumptions xdmf_loop_ends.
(** C42. After a run of the solver with the same start, nt and nsave, every entry
    names an existing file, which holds the state after that many steps (the
    entry of the start step of a restarted run is the file it read). *)
Theorem xdmf_entries_exist : forall m D P types values t0 U0 p0 conv vs ps conf mon fuel d s2 d2 tr ops s1 fuel' l name,
  mesh_setup m D -> started conf m D P types values t0 U0 p0 d ops s1 ->
  ns_main fuel conf m D P types values t0 U0 p0 mon conv vs ps d = Ok (Some (s2, d2, tr)) ->
  probes_elsewhere (c_out conf) mon -> 0 <= c_nstart conf -> 0 < c_nsave conf -> c_nrestart conf <> 0 -> (c_nsave conf | c_nstart conf) ->
  xdmf_default fuel' (c_nstart conf) (c_nt conf) (c_nsave conf) = Some l ->
  forall t, In t l -> exists F, d2 (fst (xdmf_entry (c_out conf) name t)) = Some F /\
    exists k st, t = c_nstart conf + Z.of_nat k /\ ns_steps m D P ops conv vs ps k s1 = Ok st /\ (t <> c_nstart conf \/ c_nstart conf = 0 -> holds_solution m D st F).
Proof.
  intros m D P types values t0 U0 p0 conv vs ps conf mon fuel d s2 d2 tr ops s1 fuel' l name Hset Hst Hm Hpr H0 Hsv Hrs Hd Hx t Ht.
  apply (xdmf_default_lists_saved _ _ _ _ _ Hsv Hd Hx) in Ht. destruct Ht as [Hr Hdt].
  destruct (run_length_lemma m D P types values t0 U0 p0 conv vs ps conf mon fuel d s2 d2 tr ops s1 Hst Hm) as (Hi & Hk & _).
  destruct (run_files_lemma m D P types values t0 U0 p0 conv vs ps conf mon fuel d s2 d2 tr ops s1 Hset Hst Hm Hpr H0 ltac:(lia) Hrs) as (A & B & C).
  rewrite xdmf_names_agree by lia. set (k := Z.to_nat (t - c_nstart conf)).
  assert (Ek : Z.to_nat (c_nt conf) = (k + (Z.to_nat (c_nt conf) - k))%nat) by lia. rewrite Ek, steps_add in Hk. apply bind_ok_inv in Hk. destruct Hk as (st & Est & _).
  destruct (Z.eq_dec t (c_nstart conf)) as [E|E].
  - assert (k = 0)%nat as K0 by lia. rewrite K0 in Est. injection Est as <-.
    destruct (Z.eq_dec (c_nstart conf) 0) as [E0|E0].
    + destruct (C E0) as (F & EF & HF). exists F. rewrite E, E0. split; [exact EF|]. exists 0%nat, s1. split; [lia|]. split; [reflexivity|]. auto.
    + destruct Hst as (s0 & w & E1 & E2). unfold io_initial in E2. destruct (ns_init_step _ _ _ _ _ _ _ 0 _ _ _ _ E1) as [Hi0 _]. rewrite Hi0 in E2.
      destruct (Z.eqb_spec (c_nstart conf) 0); [contradiction|]. apply bind_ok_inv in E2. destruct E2 as (s' & ER & _). unfold read_restart in ER.
      rewrite init_ops_other in ER by lia. rewrite <- E in ER. specialize (B t ltac:(lia) ltac:(lia) ltac:(lia)).
      destruct (d (solution_path (c_out conf) t)) as [F|] eqn:EF; [|discriminate]. exists F. split; [congruence|]. exists 0%nat, s1. split; [lia|]. split; [reflexivity|]. intros [X|X]; contradiction.
  - destruct (A k st ltac:(lia) Est) as (A1 & _). replace (c_nstart conf + Z.of_nat k) with t in A1 by lia.
    destruct A1 as (F & EF & HF & _); [now left|]. exists F. split; [exact EF|]. exists k, st. split; [lia|]. auto.
Qed.
Print Assumptions xdmf_entries_exist.
(** C42. When the start step is not a multiple of nsave the list is wrong: steps
    never saved are listed, saved ones are not. *)
Theorem xdmf_default_refuted : exists fuel start nt nsave l, xdmf_default fuel start nt nsave = Some l /\ 0 < nsave /\
  (exists t, In t l /\ start < t <= start + nt /\ ~ (nsave | t)) /\ (exists t, ~ In t l /\ start < t <= start + nt /\ (nsave | t)).
Proof.
  exists 9%nat, 1, 2, 2, [1; 3]. split; [reflexivity|]. split; [lia|]. split.
  - exists 3. split; [cbn; auto|]. split; [lia|]. intros [q Hq]. lia.
  - exists 2. split; [cbn; lia|]. split; [lia|]. exists 1. lia.
Qed.
Print Assumptions xdmf_default_refuted.
(** With a step of 0 or less the loop never ends. *)
Theorem xdmf_step_nonpositive_refuted : forall fuel start nt step, step <= 0 -> 0 <= nt -> xdmf_default fuel start nt step = None.
Proof. intros fuel start nt step Hs Hn. apply xdmf_diverges; lia. Qed.
Print Assumptions xdmf_step_nonpositive_refuted.

Example names_case : step_name 12345 = "0012345"%string /\ solution_path "out" 40 = "out/0000040.h5"%string /\
  fst (xdmf_entry "out" "u" 40) = "out/0000040.h5"%string /\ xdmf_default 9 100 300 100 = Some [100; 200; 300; 400].
Proof. repeat split. Qed.
