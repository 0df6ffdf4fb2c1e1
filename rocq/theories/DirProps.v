(** C91: the directories of a run. *)
From Coq Require Import String ZifyBool.
From Verif Require Import Prelude ZSum TypesModel DirModel DirProof.
Local Open Scope string_scope.
Local Open Scope list_scope.

(** C91: the result and the directories do not depend on the number of processes
    or on the order of their calls: all processes return the same. *)
Theorem directories_any_order : forall parent may fs ds, exists f x, forall n w r,
  dmoves parent may n (at_start fs ds) w -> (0 <= r < n)%Z -> p_todo (d_proc w r) = [] ->
  d_fs w = f /\ p_result (d_proc w r) = x.
Proof.
  intros parent may fs ds. destruct (alone parent may fs ds) as [f x] eqn:E. exists f, x. intros n w r M _ T.
  pose proof (ended parent may n fs ds w r M T) as A. rewrite A in E. injection E as <- <-. auto.
Qed.
Print Assumptions directories_any_order.

(** C91: after a process returned without an error, every one of its paths exists;
    what existed before is unchanged, at any time, and so is every other path. *)
Theorem directories_exist : forall parent may fs ds n w, dmoves parent may n (at_start fs ds) w ->
  (forall r d, p_todo (d_proc w r) = [] -> p_result (d_proc w r) = Ok tt -> In d ds -> exists k, d_fs w d = Some k) /\
  (forall p k, fs p = Some k -> d_fs w p = Some k) /\ (forall p, ~ In p ds -> d_fs w p = fs p).
Proof.
  intros parent may fs ds n w M. split; [|split; [exact (keeps parent may n fs ds w M)|exact (only parent may n fs ds w M)]].
  intros r d T R Hd. pose proof (ended parent may n fs ds w r M T) as A. rewrite R in A. exact (alone_makes parent may ds fs _ A d Hd).
Qed.
Print Assumptions directories_exist.

(** C91: the output directory and the logs directory are made if the first lies
    in a directory, the second in that one or in a directory, and no file has
    their names. *)
Theorem directories_made : forall parent may fs out logs n w r,
  fs (parent out) = Some IsDir -> may out = true -> may logs = true -> fs out <> Some IsFile -> fs logs <> Some IsFile ->
  parent logs = out \/ fs (parent logs) = Some IsDir ->
  dmoves parent may n (at_start fs [out; logs]) w -> p_todo (d_proc w r) = [] ->
  p_result (d_proc w r) = Ok tt /\ d_fs w out = Some IsDir /\ d_fs w logs = Some IsDir.
Proof.
  intros parent may fs out logs n w r Ho Mo Ml Fo Fl Hl M T. pose proof (ended parent may n fs _ w r M T) as A.
  assert (C : forall f d, f (parent d) = Some IsDir -> may d = true -> f d <> Some IsFile ->
    exists f', createDirectory parent may f d = (f', Ok tt) /\ f' d = Some IsDir /\ (forall p, p <> d -> f' p = f p) /\ (forall p, f p = Some IsDir -> f' p = Some IsDir)).
  { intros f d H1 H2 H3. unfold createDirectory, mkdir. destruct (f d) as [[]|] eqn:E; [exists f; auto|congruence|]. rewrite H1, H2. eexists. split; [reflexivity|].
    split; [now rewrite String.eqb_refl|]. split; intros p Hp; destruct (String.eqb_spec p d); auto; contradiction. }
  cbn [DirModel.alone] in A. destruct (C fs out Ho Mo Fo) as (f1 & E1 & D1 & K1 & P1). rewrite E1 in A.
  destruct (C f1 logs) as (f2 & E2 & D2 & K2 & P2); [destruct Hl as [->|Hl]; auto|exact Ml| |].
  { destruct (string_dec logs out) as [->|N]; [rewrite D1; discriminate|rewrite K1 by exact N; exact Fl]. }
  rewrite E2 in A. injection A as <- <-. auto.
Qed.
Print Assumptions directories_made.

(** C91, violated: a file with the name of the output directory is taken for it;
    no process returns an error. *)
Theorem file_in_the_way_refuted : forall parent may fs out logs n w r,
  fs out = Some IsFile -> fs logs = Some IsDir ->
  dmoves parent may n (at_start fs [out; logs]) w -> p_todo (d_proc w r) = [] ->
  p_result (d_proc w r) = Ok tt /\ d_fs w out = Some IsFile.
Proof.
  intros parent may fs out logs n w r Ho Hl M T. split; [|exact (keeps parent may n fs _ w M _ _ Ho)].
  pose proof (ended parent may n fs _ w r M T) as A. cbn [DirModel.alone] in A. unfold createDirectory at 1, mkdir at 1 in A. rewrite Ho in A.
  cbn [DirModel.alone] in A. unfold createDirectory, mkdir in A. rewrite Hl in A. injection A as _ <-. reflexivity.
Qed.
Print Assumptions file_in_the_way_refuted.

(** C91: a process that has not returned can go on. *)
Theorem directories_proceed : forall parent may n w r, (0 <= r < n)%Z -> p_todo (d_proc w r) <> [] -> exists w', dmove parent may n w w'.
Proof. intros. eexists. apply dmove_proc with (r := r); assumption. Qed.
Print Assumptions directories_proceed.

(** Two processes in turn: the second finds the directories of the first. *)
Example directories_case : let parent := fun p => if String.eqb p "./output/logs" then "./output" else "./" in
  let fs := fun p => if String.eqb p "./" then Some IsDir else None in let ds := ["./output"; "./output/logs"] in
  exists w, dmoves parent (fun _ => true) 2 (at_start fs ds) w /\ p_todo (d_proc w 0) = [] /\ p_todo (d_proc w 1) = [] /\
    p_result (d_proc w 1) = Ok tt /\ d_fs w "./output/logs" = Some IsDir.
Proof.
  intros parent fs ds. pose (st := fun r w => mkDW (fst (proc_step parent (fun _ => true) (d_fs w) (d_proc w r)))
                    (fun q => if (q =? r)%Z then snd (proc_step parent (fun _ => true) (d_fs w) (d_proc w r)) else d_proc w q)).
  exists (st 1 (st 0 (st 1 (st 0 (at_start fs ds)))))%Z. split; [|repeat split].
  assert (G : forall w r, dmoves parent (fun _ => true) 2 (at_start fs ds) w -> (0 <= r < 2)%Z -> p_todo (d_proc w r) <> [] -> dmoves parent (fun _ => true) 2 (at_start fs ds) (st r w))
    by (intros w r Hm Hr Ht; eapply dmoves_snoc; [exact Hm|]; now apply dmove_proc).
  do 4 (apply G; [|lia|discriminate]). apply dmoves_nil.
Qed.
