(** Proofs about the directories of a run. *)
From Coq Require Import String ZifyBool.
From Verif Require Import Prelude ZSum TypesModel DirModel.
Local Open Scope string_scope.
Local Open Scope list_scope.

Section S.
Variable parent : string -> string.
Variable may : string -> bool.
Notation create := (createDirectory parent may).
Notation alone := (alone parent may).

Lemma create_cases fs d : (create fs d = (fs, Err 1%Z) /\ fs d = None) \/ (exists fs', create fs d = (fs', Ok tt) /\ (exists k, fs' d = Some k) /\ forall p k, fs p = Some k -> fs' p = Some k).
Proof.
  unfold createDirectory, mkdir. destruct (fs d) as [k|] eqn:E; [right; exists fs; eauto|].
  destruct (fs (parent d)) as [[]|]; [|left; auto|left; auto]. destruct (may d); [|left; auto].
  right. eexists. split; [reflexivity|]. split; [exists IsDir; now rewrite String.eqb_refl|]. intros p k H. destruct (String.eqb_spec p d); [subst; congruence|exact H].
Qed.
Lemma create_again fs d k : fs d = Some k -> create fs d = (fs, Ok tt).
Proof. intros H. unfold createDirectory, mkdir. now rewrite H. Qed.

Lemma alone_app l1 : forall fs l2, alone fs (l1 ++ l2) = match alone fs l1 with (f, Ok _) => alone f l2 | (f, Err e) => (f, Err e) | (f, UB) => (f, UB) end.
Proof.
  induction l1 as [|d l IH]; intros fs l2; [reflexivity|]. cbn [Datatypes.app DirModel.alone]. destruct (create fs d) as [f [[]|e|]]; [apply IH|reflexivity|reflexivity].
Qed.
Lemma alone_keeps l : forall fs f x, alone fs l = (f, x) -> forall p k, fs p = Some k -> f p = Some k.
Proof.
  induction l as [|d l IH]; intros fs f x H p k Hp; cbn [DirModel.alone] in H; [now injection H as <- _|].
  destruct (create_cases fs d) as [[E N]|(f' & E & _ & K)]; rewrite E in H; [injection H as <- _; exact Hp|]. eapply IH; eauto.
Qed.
Lemma alone_makes l : forall fs f, alone fs l = (f, Ok tt) -> forall d, In d l -> exists k, f d = Some k.
Proof.
  induction l as [|d l IH]; intros fs f H x Hx; cbn [DirModel.alone] in H; [destruct Hx|].
  destruct (create_cases fs d) as [[E N]|(f' & E & [k M] & K)]; rewrite E in H; [discriminate|]. destruct Hx as [<-|Hx]; [|eapply IH; eauto].
  exists k. eapply alone_keeps; eauto.
Qed.
Lemma alone_result l : forall fs f x, alone fs l = (f, x) -> x = Ok tt \/ x = Err 1%Z.
Proof.
  induction l as [|d l IH]; intros fs f x H; cbn [DirModel.alone] in H; [injection H as _ <-; auto|].
  destruct (create_cases fs d) as [[E N]|(f' & E & _)]; rewrite E in H; [injection H as _ <-; auto|]. eapply IH; eauto.
Qed.

(** The file system is always that of one process that has done the first
    [front] directories; every process has done a part of them, or has failed
    where that one fails. *)
Section Run.
Variables (n : Z) (fs : fsys) (ds : list string).
Definition stands (front : list string) (p : process) : Prop :=
  (exists l1, ds = l1 ++ p_todo p /\ (exists l2, front = l1 ++ l2) /\ p_result p = Ok tt)
  \/ (p_todo p = [] /\ p_result p = Err 1%Z /\ exists d t, ds = front ++ d :: t /\ create (d_fs (at_start (fst (alone fs front)) [])) d = (fst (alone fs front), Err 1%Z)).
Definition inv (w : dworld) : Prop :=
  exists front back, ds = front ++ back /\ alone fs front = (d_fs w, Ok tt) /\ forall r, stands front (d_proc w r).
Lemma run_inv w : dmoves parent may n (at_start fs ds) w -> inv w.
Proof.
  induction 1 as [|w w' _ (front & back & E & A & I) M].
  - exists [], ds. split; [reflexivity|]. split; [reflexivity|]. intros r. left. exists []. cbn. repeat split. now exists [].
  - destruct M as [r Hr Hn]. pose proof (I r) as [(l1 & E1 & (l2 & E2) & R)|(T & _)]; [|contradiction].
    destruct (p_todo (d_proc w r)) as [|d t] eqn:Et; [contradiction|].
    assert (S0 : proc_step parent may (d_fs w) (d_proc w r) = match create (d_fs w) d with (f, Ok _) => (f, mkProc t (Ok tt)) | (f, Err e) => (f, mkProc [] (Err e)) | (f, UB) => (f, mkProc [] UB) end)
      by (unfold proc_step; rewrite Et; reflexivity).
    destruct l2 as [|d2 l2].
    + (* the process is at the front *)
      rewrite app_nil_r in E2. subst l1. assert (Eb : back = d :: t) by (rewrite E in E1; now apply app_inv_head in E1). subst back.
      destruct (create_cases (d_fs w) d) as [[Ec N]|(f' & Ec & _)]; rewrite Ec in S0; rewrite S0; cbn [fst snd d_fs d_proc].
      * exists front, (d :: t). split; [exact E|]. split; [exact A|]. intros q. cbn [d_proc]. destruct (q =? r)%Z; [|apply I]. right. cbn. split; [reflexivity|]. split; [reflexivity|].
        exists d, t. split; [exact E|]. now rewrite A.
      * exists (front ++ [d]), t. split; [now rewrite <- app_assoc|]. split.
        { rewrite alone_app, A. cbn [DirModel.alone d_fs]. now rewrite Ec. }
        intros q. cbn [d_proc]. destruct (q =? r)%Z.
        { left. exists (front ++ [d]). cbn. split; [now rewrite <- app_assoc|]. split; [exists []; now rewrite app_nil_r|reflexivity]. }
        destruct (I q) as [(m1 & F1 & (m2 & F2) & F3)|(F1 & F2 & d' & t' & F3 & F4)].
        { left. exists m1. split; [exact F1|]. split; [|exact F3]. exists (m2 ++ [d]). now rewrite F2, app_assoc. }
        { exfalso. rewrite E in F3. apply app_inv_head in F3. injection F3 as <- <-. rewrite A in F4. cbn [fst d_fs at_start] in F4. rewrite F4 in Ec. discriminate. }
    + (* the directory is already there *)
      assert (Ed : d2 = d). { rewrite E, E2, <- app_assoc in E1. apply app_inv_head in E1. now injection E1 as -> _. } subst d2.
      destruct (alone_makes _ _ _ A d) as [k Hk]; [rewrite E2; apply in_or_app; right; now left|].
      rewrite (create_again _ _ _ Hk) in S0. rewrite S0. cbn [fst snd d_fs d_proc]. exists front, back. split; [exact E|]. split; [exact A|].
      intros q. cbn [d_proc]. destruct (q =? r)%Z; [|apply I]. left. exists (l1 ++ [d]). cbn. split; [now rewrite <- app_assoc|]. split; [|reflexivity]. exists l2. rewrite E2, <- app_assoc. reflexivity.
Qed.
Lemma ended w r : dmoves parent may n (at_start fs ds) w -> p_todo (d_proc w r) = [] -> alone fs ds = (d_fs w, p_result (d_proc w r)).
Proof.
  intros M T. destruct (run_inv w M) as (front & back & E & A & I). destruct (I r) as [(l1 & E1 & (l2 & E2) & R)|(_ & R & d & t & E1 & C)].
  - rewrite T, app_nil_r in E1. assert (back = [] /\ l2 = []) as [-> ->].
    { apply (f_equal (@length string)) in E. apply (f_equal (@length string)) in E2. rewrite E1 in E. rewrite app_length in E, E2. split; [destruct back|destruct l2]; cbn in *; auto; lia. }
    rewrite app_nil_r in E. rewrite R, E. exact A.
  - rewrite R, E1, alone_app, A. cbn [DirModel.alone]. rewrite A in C. cbn [fst d_fs at_start] in C. now rewrite C.
Qed.
Lemma keeps w : dmoves parent may n (at_start fs ds) w -> forall p k, fs p = Some k -> d_fs w p = Some k.
Proof. intros M p k H. destruct (run_inv w M) as (front & back & E & A & I). eapply alone_keeps; eauto. Qed.
Lemma only w : dmoves parent may n (at_start fs ds) w -> forall p, ~ In p ds -> d_fs w p = fs p.
Proof.
  intros M p Hp. destruct (run_inv w M) as (front & back & E & A & I). clear I M.
  assert (Hf : ~ In p front) by (intros H; apply Hp; rewrite E; apply in_or_app; auto). clear E Hp. revert fs A. induction front as [|d l IH]; intros f0 A; cbn [DirModel.alone] in A; [now injection A as ->|].
  assert (K : forall f' x, create f0 d = (f', x) -> f' p = f0 p).
  { intros f' x. unfold createDirectory, mkdir. destruct (f0 d); [now intros H; injection H as <- _|]. destruct (f0 (parent d)) as [[]|]; try (now intros H; injection H as <- _).
    destruct (may d); [|now intros H; injection H as <- _]. intros H. injection H as <- _. destruct (String.eqb_spec p d) as [->|]; [exfalso; apply Hf; now left|reflexivity]. }
  destruct (create f0 d) as [f' [[]|e|]] eqn:Ec; try discriminate. rewrite <- (K _ _ eq_refl). apply IH; [|exact A]. intros H. apply Hf. now right.
Qed.
End Run.
End S.
