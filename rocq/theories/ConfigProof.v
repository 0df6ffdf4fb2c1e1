(** Proofs about the settings and the words. *)
From Coq Require Import Ascii String Permutation.
From Verif Require Import Prelude ZSum RSum TypesModel GridModel GridSpec IndexModel IndexSpec
  BoundaryModel BoundarySpec OperatorModel OperatorSpec SolutionModel ConfigModel ConfigSpec.
Local Open Scope R_scope.
Local Open Scope string_scope.

Lemma assoc_set_key k v l k' :
  assoc (set_key k v l) k' = if String.eqb k k' then Some v else assoc l k'.
Proof.
  induction l as [|[a x] t IH]; cbn [set_key assoc]; [reflexivity|].
  destruct (String.eqb_spec a k) as [->|Ha]; cbn [assoc].
  - destruct (String.eqb k k'); reflexivity.
  - rewrite IH. destruct (String.eqb_spec a k') as [->|Hk]; [|reflexivity].
    destruct (String.eqb_spec k k'); [congruence|reflexivity].
Qed.

Lemma set_key_In k v l k' : In k' (map fst (set_key k v l)) -> k' = k \/ In k' (map fst l).
Proof.
  induction l as [|[a x] t IH]; cbn [set_key map fst In]; [intuition congruence|].
  destruct (String.eqb_spec a k) as [->|Ha]; cbn [map fst In]; [tauto|]. intros [->|H]; [tauto|].
  destruct (IH H); tauto.
Qed.

Lemma set_key_NoDup k v l : NoDup (map fst l) -> NoDup (map fst (set_key k v l)).
Proof.
  induction l as [|[a x] t IH]; cbn [set_key map fst]; intros H.
  - repeat constructor. intros [].
  - inversion H as [|? ? Hni Hnd]; subst. destruct (String.eqb_spec a k) as [->|Ha]; cbn [map fst].
    + now constructor.
    + constructor; [|now apply IH]. intros Hi. apply set_key_In in Hi. destruct Hi as [->|Hi]; [congruence|tauto].
Qed.

Lemma last_def_snoc {A} (l : list (string * A)) k v k' v' :
  last_def (l ++ [(k, v)])%list k' v' <-> (k = k' /\ v = v') \/ (k <> k' /\ last_def l k' v').
Proof.
  split.
  - intros (l1 & l2 & E & N). destruct l2 as [|z l2' _] using rev_ind.
    + apply app_inj_tail in E. destruct E as [_ E]. injection E as -> ->. tauto.
    + rewrite app_comm_cons, app_assoc in E. apply app_inj_tail in E. destruct E as [-> <-].
      rewrite map_app, in_app_iff in N. cbn in N. right. split; [tauto|]. exists l1, l2'. split; [reflexivity|tauto].
  - intros [[-> ->]|[Hk (l1 & l2 & -> & N)]].
    + exists l, []. split; [reflexivity|]. intros [].
    + exists l1, (l2 ++ [(k, v)])%list. split; [now rewrite <- app_assoc|].
      rewrite map_app, in_app_iff. cbn. intuition congruence.
Qed.

Definition agrees (st : settings) (l : list (string * yaml)) : Prop :=
  NoDup (map fst st) /\ forall k v, assoc st k = Some v <-> last_def l k v.

Lemma agrees_nil : agrees [] [].
Proof.
  split; [constructor|]. intros k v. split; [discriminate|]. intros (l1 & l2 & E & _). destruct l1; discriminate.
Qed.

Lemma agrees_set st l k v : agrees st l -> agrees (set_key k v st) (l ++ [(k, v)])%list.
Proof.
  intros [N H]. split; [now apply set_key_NoDup|]. intros k' v'. rewrite assoc_set_key, last_def_snoc.
  destruct (String.eqb_spec k k') as [->|Hk].
  - split; [intros E; injection E as ->; tauto|]. intros [[_ ->]|[C _]]; [reflexivity|congruence].
  - rewrite H. tauto.
Qed.

Lemma agrees_fold es : forall st l, agrees st l ->
  agrees (fold_left (fun s kv => set_key (fst kv) (snd kv) s) es st) (l ++ es)%list.
Proof.
  induction es as [|[k v] t IH]; intros st l H; cbn [fold_left fst snd]; [now rewrite app_nil_r|].
  replace (l ++ (k, v) :: t)%list with ((l ++ [(k, v)]) ++ t)%list by (rewrite <- app_assoc; reflexivity).
  apply IH. now apply agrees_set.
Qed.

Section Sett.
Variables (cli : string -> option string) (fs : string -> loaded) (mkdir : string -> bool).

Lemma read_file_ok path st l : usable fs path -> agrees st l ->
  exists st', readYAMLFile fs path st = Ok st' /\ agrees st' (l ++ file_entries fs path)%list.
Proof.
  intros (y & E & Hy) H. unfold readYAMLFile, file_entries. rewrite E.
  destruct y as [|s|q|q]; try (eexists; split; [reflexivity|]; now rewrite ?app_nil_r).
  - destruct q as [|x t]; [|exfalso; now apply (Hy x t)]. eexists. split; [reflexivity|]. now rewrite app_nil_r.
  - eexists. split; [reflexivity|]. now apply agrees_fold.
Qed.

Lemma read_file_inv path st st' : readYAMLFile fs path st = Ok st' -> usable fs path.
Proof.
  unfold readYAMLFile, usable. destruct (fs path) as [| |y]; try discriminate. intros H.
  exists y. split; [reflexivity|]. intros x t ->. discriminate.
Qed.

Definition read_files (ps : list string) (st : settings) : res settings := foldM (fun s p => readYAMLFile fs p s) ps st.

Lemma read_files_ok ps : forall st l, Forall (usable fs) ps -> agrees st l ->
  exists st', read_files ps st = Ok st' /\ agrees st' (l ++ flat_map (file_entries fs) ps)%list.
Proof.
  induction ps as [|p t IH]; intros st l Hp H; cbn [read_files foldM flat_map].
  - exists st. rewrite app_nil_r. auto.
  - inversion Hp as [|? ? H1 H2]; subst. destruct (read_file_ok p st l H1 H) as (s1 & E1 & A1).
    unfold read_files. cbn [foldM]. rewrite E1. cbn [bind]. destruct (IH s1 _ H2 A1) as (s2 & E2 & A2).
    exists s2. split; [exact E2|]. now rewrite app_assoc.
Qed.

Lemma read_files_inv ps : forall st st', read_files ps st = Ok st' -> Forall (usable fs) ps.
Proof.
  induction ps as [|p t IH]; intros st st' H; [constructor|]. unfold read_files in H. cbn [foldM] in H.
  destruct (readYAMLFile fs p st) eqn:E; cbn [bind] in H; try discriminate.
  constructor; [eapply read_file_inv; eauto|eapply IH; eauto].
Qed.

Lemma read_files_missing ps1 p ps2 : Forall (usable fs) ps1 -> fs p = NoFile -> forall st,
  read_files (ps1 ++ p :: ps2)%list st = Err PETSC_ERR_FILE_OPEN.
Proof.
  induction ps1 as [|q t IH]; intros Hu Hp st; unfold read_files; cbn [app foldM].
  - unfold readYAMLFile at 1. rewrite Hp. reflexivity.
  - inversion Hu as [|? ? (y & Ey & Hy) H2]; subst. unfold readYAMLFile at 1. rewrite Ey.
    destruct y as [|s|[|x u]|u]; cbn [bind]; try (apply IH; assumption). exfalso. now apply (Hy x u).
Qed.

Definition base : settings :=
  [("directory", YScalar (the_directory cli)); ("output", YScalar (the_output cli)); ("logs", YScalar (the_logs cli))].

Lemma agrees_base : agrees base base.
Proof.
  replace base with (fold_left (fun s kv => set_key (fst kv) (snd kv) s) base []) at 1 by reflexivity.
  exact (agrees_fold base [] [] agrees_nil).
Qed.

Lemma foldM_app {A S} (f : S -> A -> res S) l1 l2 s : foldM f (l1 ++ l2)%list s = do s' <- foldM f l1 s; foldM f l2 s'.
Proof. revert s. induction l1 as [|x t IH]; intros s; [reflexivity|]. cbn [app foldM]. destruct (f s x); cbn [bind]; auto. Qed.

Lemma optional_files os : forall st,
  foldM (fun st o => match cli o with Some path => readYAMLFile fs path st | None => Ok st end) os st
  = read_files (flat_map (optional cli) os) st.
Proof.
  unfold read_files. induction os as [|o t IH]; intros st; [reflexivity|]. cbn [foldM flat_map]. unfold optional at 1.
  destruct (cli o) as [p|]; cbn [app foldM bind]; [|apply IH].
  destruct (readYAMLFile fs p st); cbn [bind]; auto.
Qed.

Lemma getSettings_eq :
  getSettings cli fs mkdir =
  if mkdir (the_output cli) then
    ([the_output cli; the_logs cli], if mkdir (the_logs cli) then read_files (config_files cli) base else Err 1%Z)
  else ([the_output cli], Err 1%Z).
Proof.
  unfold getSettings, createDirectory, scalar_at, option_or.
  cbn [set_key assoc as_string String.eqb Ascii.eqb Bool.eqb].
  fold (given cli "-directory" "./"). fold (the_directory cli).
  fold (given cli "-output" (the_directory cli ++ "/output")). fold (the_output cli).
  fold (given cli "-logs" (the_output cli ++ "/logs")). fold (the_logs cli).
  destruct (mkdir (the_output cli)); [|reflexivity].
  destruct (mkdir (the_logs cli)); [|reflexivity]. cbn [bind].
  fold base. fold (given cli "-config" (the_directory cli ++ "/config.yaml")).
  f_equal. unfold config_files, read_files. cbn [foldM].
  destruct (readYAMLFile fs _ base) as [s|c|]; cbn [bind]; try reflexivity.
  change (optional cli "-mesh" ++ optional cli "-flow" ++ optional cli "-parameters" ++
          optional cli "-bodies" ++ optional cli "-probes")%list with
    (optional cli "-mesh" ++ optional cli "-flow" ++ optional cli "-parameters" ++
          optional cli "-bodies" ++ optional cli "-probes")%list.
  pose proof (optional_files ["-mesh"; "-flow"; "-parameters"; "-bodies"; "-probes"] s) as E.
  cbn [flat_map] in E. rewrite app_nil_r in E. exact E.
Qed.

Lemma settings_lemma :
  mkdir (the_output cli) = true -> mkdir (the_logs cli) = true -> Forall (usable fs) (config_files cli) ->
  exists st, getSettings cli fs mkdir = ([the_output cli; the_logs cli], Ok st) /\
    NoDup (map fst st) /\ forall k v, assoc st k = Some v <-> last_def (all_definitions cli fs) k v.
Proof.
  intros H1 H2 Hu. rewrite getSettings_eq, H1, H2.
  destruct (read_files_ok _ base base Hu agrees_base) as (st & E & N & A).
  exists st. rewrite E. split; [reflexivity|]. split; [exact N|]. exact A.
Qed.

Lemma settings_inv dirs st :
  getSettings cli fs mkdir = (dirs, Ok st) ->
  mkdir (the_output cli) = true /\ mkdir (the_logs cli) = true /\ Forall (usable fs) (config_files cli).
Proof.
  rewrite getSettings_eq. destruct (mkdir (the_output cli)); [|discriminate].
  destruct (mkdir (the_logs cli)); [|discriminate]. intros H. injection H as _ H.
  repeat split. eapply read_files_inv; eauto.
Qed.

Lemma settings_missing pre p post :
  mkdir (the_output cli) = true -> mkdir (the_logs cli) = true ->
  config_files cli = (pre ++ p :: post)%list -> Forall (usable fs) pre -> fs p = NoFile ->
  snd (getSettings cli fs mkdir) = Err PETSC_ERR_FILE_OPEN.
Proof.
  intros H1 H2 E Hu Hp. rewrite getSettings_eq, H1, H2. cbn [snd]. rewrite E. now apply read_files_missing.
Qed.
End Sett.

Lemma last_def_unique {A} (l : list (string * A)) k v v' : last_def l k v -> last_def l k v' -> v = v'.
Proof.
  induction l as [|x t IH] using rev_ind; [intros (a & b & E & _); destruct a; discriminate|].
  destruct x as [k0 v0]. rewrite !last_def_snoc. intros [[-> ->]|[N H]] [[E ->]|[N' H']]; try congruence. auto.
Qed.

(** ** Words *)

Lemma assoc_app {T} (l1 l2 : list (string * T)) s :
  assoc (l1 ++ l2)%list s = match assoc l1 s with Some v => Some v | None => assoc l2 s end.
Proof. induction l1 as [|[k v] t IH]; [reflexivity|]. cbn [app assoc]. destruct (String.eqb k s); auto. Qed.

Lemma map_after_get {T} (dflt : T) tab hist s :
  map_get (map_after dflt tab hist) dflt s = map_get tab dflt s.
Proof.
  revert tab. induction hist as [|w t IH]; intros tab; [reflexivity|].
  unfold map_after. cbn [fold_left]. fold (map_after dflt (snd (map_index dflt tab w)) t). rewrite IH.
  unfold map_index. destruct (assoc tab w) as [v|] eqn:E; [reflexivity|]. cbn [snd]. unfold map_get.
  rewrite assoc_app. destruct (assoc tab s); [reflexivity|]. cbn [assoc]. destruct (String.eqb w s); reflexivity.
Qed.

Lemma map_index_get {T} (dflt : T) tab s : fst (map_index dflt tab s) = map_get tab dflt s.
Proof. unfold map_index, map_get. destruct (assoc tab s); reflexivity. Qed.

Lemma map_history {T} (dflt : T) tab hist s :
  fst (map_index dflt (map_after dflt tab hist) s) = map_get tab dflt s.
Proof. rewrite map_index_get. apply map_after_get. Qed.

Lemma assoc_None {T} (l : list (string * T)) s : ~ In s (map fst l) -> assoc l s = None.
Proof.
  induction l as [|[k v] t IH]; [reflexivity|]. cbn [map fst In assoc]. intros H.
  destruct (String.eqb_spec k s) as [->|]; [tauto|]. apply IH. tauto.
Qed.

Lemma get_unknown {T} (dflt : T) tab s : ~ In s (map fst tab) -> map_get tab dflt s = dflt.
Proof. intros H. unfold map_get. now rewrite assoc_None. Qed.
