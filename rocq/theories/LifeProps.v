(** C71. The programs neither lose an object nor use one that was freed. *)
From Verif Require Import Prelude LifeModel LifeSpec LifeHeap LifeEnd.
Local Open Scope Z_scope.

(** For each of the four solvers, any data of a run and any number of time steps
    with any outputs: no handle is used before it is set or after its object is
    freed, and after destroy no object is alive. *)
Theorem every_object_freed : forall (a : app) (sh : shape) (es : list event),
  wf_shape sh -> exists h, run empty_heap (program a sh es) = Ok h /\ nothing_alive h.
Proof. exact everything_freed. Qed.
Print Assumptions every_object_freed.

(** At any time between two steps the program can get at every object that is
    alive; its members hold the objects they held after the initialisation, of
    the same classes, except that a probe may have allocated the vector it
    accumulates into; and a linear solver refers to its operator and its
    preconditioner only, however many times the operator was replaced. *)
Theorem steps_lose_nothing : forall (a : app) (sh : shape) (es : list event), wf_shape sh ->
  exists h0 h1, run empty_heap (start a sh) = Ok h0 /\ run h0 (flat_map (step a sh) es) = Ok h1 /\ no_garbage h1 /\
    (forall s k, holds h0 s k -> holds h1 s k) /\
    (forall s k, ~ probe_sum s -> holds h1 s k -> holds h0 s k) /\
    (forall s, holds h1 s KKsp -> refers h1 s 2).
Proof. exact members_steady. Qed.
Print Assumptions steps_lose_nothing.

(** A second destroy does nothing, as when the destructor follows an explicit
    call, *)
Theorem destroy_twice : forall (a : app) (sh : shape) (es : list event), wf_shape sh -> a <> Coupled ->
  exists h, run empty_heap (program a sh es ++ destroy a sh) = Ok h /\ nothing_alive h.
Proof. exact destroyed_twice. Qed.
Print Assumptions destroy_twice.

(** except in the coupled solver, which resets the array of a NULL vector. *)
Theorem coupled_destroy_twice_refuted : forall (sh : shape) (es : list event), wf_shape sh ->
  run empty_heap (program Coupled sh es ++ destroy Coupled sh) = Err 85.
Proof. exact coupled_twice. Qed.
Print Assumptions coupled_destroy_twice_refuted.

(** A solver that was never initialised cannot be destroyed: its handles were
    never set. The programs do this when the configuration file cannot be read. *)
Theorem destroy_before_init_refuted : forall (a : app) (sh : shape),
  s_conv sh = 0 -> s_diff sh = 0 -> s_probes sh = [] -> s_bodies sh = 0 ->
  run empty_heap (constructor a ++ destroy a sh) = UB.
Proof. exact destroyed_before_init. Qed.
Print Assumptions destroy_before_init_refuted.

(** Nor can one whose initialisation stopped with an error at any point before
    the vectors of the solver are created. *)
Theorem destroy_during_init_refuted : forall (sh : shape) (part rest : list op),
  wf_shape sh -> init NavierStokes sh = part ++ rest -> Forall (fun o => ~ names o SdP) part ->
  run empty_heap (constructor NavierStokes ++ part ++ destroy NavierStokes sh) = UB.
Proof. exact stopped_in_init. Qed.
Print Assumptions destroy_during_init_refuted.

(** The approximate inverses that users of the library build: two of the three
    functions free what they allocate, for any number of terms and of calls, *)
Theorem approximate_inverse_frees : forall (sh : shape) (n : Z) (k : nat) (call : list op),
  call = create_bnhead sh LOp n LBn \/ call = create_bn sh LOp LM LMHead n LBn ->
  exists h, run empty_heap (library_user [LOp; LM; LMHead] call LBn k) = Ok h /\ nothing_alive h.
Proof. intros sh n k call [->| ->]; [apply bnhead_frees|apply bn_frees]. Qed.
Print Assumptions approximate_inverse_frees.

(** and the one that takes the mass matrix loses a vector. *)
Theorem approximate_inverse_leaks_refuted : forall (sh : shape) (n : Z),
  exists h, run empty_heap (library_user [LOp; LM] (create_bn_m sh LOp LM n LBn) LBn 1) = Ok h /\ lost h.
Proof. exact m_leaks. Qed.
Print Assumptions approximate_inverse_leaks_refuted.

(** Non-vacuity: three dimensions, two bodies, an accumulating volume probe and a
    point probe, a run with restart data. *)
Definition life_ex : shape := {|
  s_dim := 3; s_conv := 2; s_diff := 1; s_bn := 3; s_keep := true; s_kspv := true; s_kspp := true; s_kspf := true; s_root := true;
  s_restart := true; s_probes := [PVolume 0 true; PPoint 3; PVolume 2 false]; s_bodies := 2 |}.
Definition life_event (k : Z) : event :=
  {| e_save := Z.even k; e_restart := k =? 2; e_missing := false; e_due := fun i => (i <=? k) |}.

Example life_ex_wf : wf_shape life_ex.
Proof.
  unfold wf_shape, life_ex. cbn. repeat split; try lia; auto. intros p [<-|[<-|[<-|[]]]]; cbn; lia.
Qed.

(** During the run of the solver for moving bodies 74 objects are alive after
    the initialisation; the accumulating probe adds its vector. *)
Example life_ex_run :
  exists h0 h3 h, run empty_heap (start Moving life_ex) = Ok h0 /\ run h0 (flat_map (step Moving life_ex) (map life_event [1; 2; 3])) = Ok h3 /\
    run h3 (destroy Moving life_ex) = Ok h /\ 60 < lenZ (h_objs h0) < lenZ (h_objs h3) /\ lenZ (h_objs h) = 0.
Proof.
  do 3 eexists. split; [vm_compute; reflexivity|]. split; [vm_compute; reflexivity|]. split; [vm_compute; reflexivity|]. vm_compute. auto.
Qed.

Definition init_front : list op := firstn 40 (init NavierStokes life_ex).
Example init_front_stops : Forall (fun o => ~ names o SdP) init_front /\ init NavierStokes life_ex = init_front ++ skipn 40 (init NavierStokes life_ex).
Proof.
  split; [|symmetry; apply firstn_skipn]. vm_compute. repeat constructor; intros H; vm_compute in H;
  repeat match goal with
  | H : _ \/ _ |- _ => destruct H as [H|H]
  | H : exists p, _ |- _ => destruct H as (? & H)
  | H : _ /\ _ |- _ => destruct H as [? H]
  | H : In _ _ |- _ => cbn in H
  end; try discriminate; try contradiction; try (subst; discriminate).
Qed.
