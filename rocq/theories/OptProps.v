(** C84: the settings of the linear solvers. *)
From Coq Require Import String ZifyBool.
From Verif Require Import Prelude ConfigModel OptModel OptSpec OptProof.
Local Open Scope string_scope.

(** C84. What the file of a solver says about an option of that solver is what
    the solver uses. *)
Theorem own_file_decides : forall files l db ss i name config s o v,
  create_solvers files l db = Ok ss -> nthZ l i = Some (name, config) -> nthZ ss i = Some s ->
  last_value (file_of files config) ("-" ++ name ++ "_" ++ o) = Some v -> s o = Some v.
Proof. exact own_file. Qed.
Print Assumptions own_file_decides.

(** C84. If every file has options of its own solver only, then the settings of
    each solver are: its file, then the command line, then the default;
    nothing else. *)
Theorem solvers_are_independent : forall files db cv cp cf,
  only_own "velocity" (file_of files cv) -> only_own "poisson" (file_of files cp) ->
  (forall ss, create_solvers files (ns_solvers cv cp) db = Ok ss ->
     forall i name config s o, nthZ (ns_solvers cv cp) i = Some (name, config) -> nthZ ss i = Some s ->
       s o = first_of (first_of (last_value (file_of files config) ("-" ++ name ++ "_" ++ o)) (db ("-" ++ name ++ "_" ++ o))) (default_value o)) /\
  (only_own "forces" (file_of files cf) ->
   forall ss, create_solvers files (dec_solvers cv cp cf) db = Ok ss ->
     forall i name config s o, nthZ (dec_solvers cv cp cf) i = Some (name, config) -> nthZ ss i = Some s ->
       s o = first_of (first_of (last_value (file_of files config) ("-" ++ name ++ "_" ++ o)) (db ("-" ++ name ++ "_" ++ o))) (default_value o)).
Proof.
  intros files db cv cp cf Hv Hp. split.
  - intros ss H i name config s o Hi Hs. eapply separated; [exact H|exact Hi|exact Hs| |].
    + intros n c [E|[E|[]]]; injection E as <- <-; (split; [cbn; tauto|assumption]).
    + cbn. repeat constructor; cbn; intuition discriminate.
  - intros Hf ss H i name config s o Hi Hs. eapply separated; [exact H|exact Hi|exact Hs| |].
    + intros n c [E|[E|[E|[]]]]; injection E as <- <-; (split; [cbn; tauto|assumption]).
    + cbn. repeat constructor; cbn; intuition discriminate.
Qed.
Print Assumptions solvers_are_independent.

(** C84. The prefixes cannot be confused: an option of one solver is never an
    option of another one. *)
Theorem prefixes_are_apart : forall n1 n2 o1 o2, In n1 ["velocity"; "poisson"; "forces"] -> In n2 ["velocity"; "poisson"; "forces"] ->
  "-" ++ n1 ++ "_" ++ o1 = "-" ++ n2 ++ "_" ++ o2 -> n1 = n2 /\ o1 = o2.
Proof. exact names_apart. Qed.
Print Assumptions prefixes_are_apart.

(** C84. Options in the files of solvers created later have no effect on a
    solver: the velocity solver never sees the Poisson solver's file, neither of
    them that of the forces. *)
Theorem later_files_have_no_effect : forall files files' l db ss ss' i name config s s' o,
  create_solvers files l db = Ok ss -> create_solvers files' l db = Ok ss' ->
  nthZ l i = Some (name, config) -> nthZ ss i = Some s -> nthZ ss' i = Some s' ->
  (forall k n c, (0 <= k <= i)%Z -> nthZ l k = Some (n, c) -> files c = files' c) -> s o = s' o.
Proof. exact later_files. Qed.
Print Assumptions later_files_have_no_effect.

(** That an option of the command line is used fails: the file, inserted
    afterwards, replaces it. *)
Theorem command_line_refuted : ~ (forall files l db ss i name config s o v, create_solvers files l db = Ok ss -> nthZ l i = Some (name, config) -> nthZ ss i = Some s ->
  db ("-" ++ name ++ "_" ++ o) = Some v -> s o = Some v).
Proof.
  intros H. specialize (H (fun _ => Some [("-velocity_ksp_max_it", "1000")]) (ns_solvers "v.info" "None") (fun k => if String.eqb k "-velocity_ksp_max_it" then Some "5" else None)).
  specialize (H _ 0%Z "velocity" "v.info" _ "ksp_max_it" "5" eq_refl eq_refl eq_refl eq_refl). discriminate.
Qed.
Print Assumptions command_line_refuted.

(** The files of the cavity example: bcgs for the velocity, cg for the Poisson
    system, 10000 iterations from the command line where no file says anything. *)
Example solver_settings_case :
  let files := fun c => if String.eqb c "v.info" then Some [("-velocity_ksp_type", "bcgs"); ("-velocity_ksp_atol", "1.0E-06"); ("-velocity_pc_type", "jacobi")]
                        else if String.eqb c "p.info" then Some [("-poisson_ksp_atol", "1.0E-06"); ("-poisson_pc_type", "gamg")] else None in
  let db := fun k => if String.eqb k "-poisson_ksp_max_it" then Some "10000" else None in
  only_own "velocity" (file_of files "v.info") /\ only_own "poisson" (file_of files "p.info") /\
  exists sv sp, create_solvers files (ns_solvers "v.info" "p.info") db = Ok [sv; sp] /\
    sv "ksp_type" = Some "bcgs" /\ sv "pc_type" = Some "jacobi" /\ sp "ksp_type" = Some "cg" /\ sp "pc_type" = Some "gamg" /\ sp "ksp_max_it" = Some "10000" /\ sv "ksp_max_it" = None.
Proof.
  cbv zeta. split; [|split].
  - intros k v [E|[E|[E|[]]]]; injection E as <- <-; eexists; reflexivity.
  - intros k v [E|[E|[]]]; injection E as <- <-; eexists; reflexivity.
  - eexists; eexists. split; [reflexivity|]. repeat split.
Qed.
