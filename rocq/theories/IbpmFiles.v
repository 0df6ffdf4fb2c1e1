(** Proofs about the files of the moving bodies. *)
From Coq Require Import String Ascii ZifyBool.
From Verif Require Import Prelude ZSum RSum TypesModel GridModel GridSpec GridProof MeshProof IndexModel IndexSpec
  BoundaryModel BoundarySpec BoundaryProof OperatorModel OperatorSpec OperatorProof BStateProof
  MatModel NSModel NSSpec NSProof BodyModel BodySpec BodyProof BodyText
  DeltaModel DeltaSpec NameModel NameProof IbpmModel IbpmSpec IbpmMove.
Local Open Scope R_scope.

(** * Paths *)
Definition under : ascii := "_"%char.
Fixpoint has_under (s : string) : bool :=
  match s with EmptyString => false | String c t => Ascii.eqb c under || has_under t end.
Lemma has_under_app s t : has_under (s ++ t)%string = has_under s || has_under t.
Proof. induction s as [|c s IH]; [reflexivity|]. cbn [String.append has_under]. rewrite IH. now rewrite orb_assoc. Qed.
Lemma digits_under s : all_digits s -> has_under s = false.
Proof.
  induction s as [|c s IH]; [reflexivity|]. intros [Hc Hs]. cbn [has_under]. rewrite IH by auto. destruct (Ascii.eqb_spec c under) as [->|]; [|reflexivity].
  cbn in Hc. lia.
Qed.
(** The last underscore separates. *)
Lemma last_under a b c d : has_under b = false -> has_under d = false -> (a ++ "_" ++ b = c ++ "_" ++ d)%string -> a = c /\ b = d.
Proof.
  intros Hb Hd. revert c. induction a as [|x a IH]; intros [|y c] H.
  - cbn [String.append] in H. injection H as H. auto.
  - cbn [String.append] in H. injection H as _ H. subst b. rewrite has_under_app in Hb. cbn [has_under String.append] in Hb. rewrite orb_true_r in Hb. discriminate.
  - cbn [String.append] in H. injection H as _ H. subst d. rewrite has_under_app in Hd. cbn [has_under String.append] in Hd. rewrite orb_true_r in Hd. discriminate.
  - cbn [String.append] in H. injection H as -> H. destruct (IH _ H) as [-> ->]. auto.
Qed.
Lemma app_len s t : String.length (s ++ t)%string = (String.length s + String.length t)%nat.
Proof. induction s as [|c s IH]; [reflexivity|]. cbn. now rewrite IH. Qed.
Lemma app_inj_tail s t u : (s ++ u = t ++ u)%string -> s = t.
Proof.
  revert t. induction s as [|c s IH]; intros [|d t] H; [reflexivity| | |].
  - apply (f_equal String.length) in H. cbn in H. rewrite app_len in H. lia.
  - apply (f_equal String.length) in H. cbn in H. rewrite app_len in H. lia.
  - cbn in H. injection H as -> H. now rewrite (IH _ H).
Qed.
Lemma body_path_inj out nm nm' i i' dim : (dim = 2 \/ dim = 3)%Z -> (0 <= i)%Z -> (0 <= i')%Z ->
  body_path out nm i dim = body_path out nm' i' dim -> nm = nm' /\ i = i'.
Proof.
  intros Hd Hi Hi' H. unfold body_path in H. apply str_app_inj_l in H. cbn [String.append] in H. injection H as H.
  change (String "_" ?x) with ("_" ++ x)%string in H.
  assert (S : has_under ("." ++ to_string dim ++ "D") = false) by (destruct Hd as [-> | ->]; reflexivity).
  apply last_under in H.
  - destruct H as [-> H]. split; [reflexivity|]. apply app_inj_tail in H. now apply step_name_inj.
  - rewrite has_under_app, (digits_under (step_name i)) by now apply step_name_digits. exact S.
  - rewrite has_under_app, (digits_under (step_name i')) by now apply step_name_digits. exact S.
Qed.

(** * What is on disk *)
Lemma disk_app w1 w2 p : on_disk (w1 ++ w2) p = match on_disk w2 p with Some t => Some t | None => on_disk w1 p end.
Proof.
  unfold on_disk. rewrite fold_left_app. generalize (fold_left (fun acc pt => if String.eqb (fst pt) p then Some (snd pt) else acc) w1 None). intros a0.
  revert a0. induction w2 as [|x t IH] using rev_ind; intros a0; [destruct a0; reflexivity|]. rewrite !fold_left_app. cbn [fold_left]. destruct (String.eqb (fst x) p); auto.
Qed.
Lemma disk_none w p : ~ In p (map fst w) -> on_disk w p = None.
Proof.
  unfold on_disk. induction w as [|x t IH] using rev_ind; intros H; [reflexivity|]. rewrite map_app, in_app_iff in H. rewrite fold_left_app. cbn [fold_left].
  destruct (String.eqb_spec (fst x) p) as [E|]; [|apply IH; tauto]. exfalso. apply H. right. cbn. auto.
Qed.
Lemma disk_one w p t : NoDup (map fst w) -> In (p, t) w -> on_disk w p = Some t.
Proof.
  unfold on_disk. induction w as [|x w IH] using rev_ind; intros ND H; [destruct H|]. rewrite map_app in ND. cbn in ND.
  rewrite fold_left_app. cbn [fold_left]. apply in_app_iff in H. apply NoDup_remove in ND. rewrite app_nil_r in ND. destruct ND as [ND Hn].
  destruct H as [H|[->|[]]]; [|cbn; now rewrite String.eqb_refl].
  destruct (String.eqb_spec (fst x) p) as [E|]; [|auto]. exfalso. apply Hn. rewrite E. apply in_map_iff. exists (p, t). auto.
Qed.

Lemma line_written pr row : lenZ row = 2%Z \/ lenZ row = 3%Z -> written pr row = line_of pr row.
Proof. unfold lenZ. destruct row as [|x [|y [|z [|? ?]]]]; cbn; intros [H|H]; try lia; reflexivity. Qed.

Section Files.
Variables (m : mesh) (D : dec) (pr : R -> string) (out : string) (names : list string) (bodies : list (body * list (list R))).
Hypotheses (Hd : (m_dim m = 2 \/ m_dim m = 3)%Z) (Hbo : bodies_ok m D bodies) (Hn : NoDup names) (Hl : lenZ names = lenZ bodies).

(** The files of one call. *)
Definition body_files (cs : list (list (list R))) (ite : Z) : list (string * text) :=
  map (fun nc => (body_path out (fst nc) ite (m_dim m), points_file pr (snd nc))) (combine names cs).

Lemma one_body cs bc : same_shape cs (map snd bodies) -> In bc (bodies_at bodies cs) ->
  writeBody pr (m_dim m) (b_nPts (fst bc)) (snd bc) = Ok (points_file pr (snd bc)).
Proof.
  intros Hs Hin. destruct (ok_at m D bodies cs Hbo Hs) as [_ Hf]. rewrite Forall_forall in Hf. destruct (Hf bc Hin) as [<- Hrow].
  rewrite writeBody_lines by auto. unfold points_file. do 2 f_equal. apply map_ext_in. intros row Hr. rewrite Forall_forall in Hrow. apply line_written. rewrite Hrow by auto. exact Hd.
Qed.
Lemma writeBodies_files cs ite : same_shape cs (map snd bodies) -> writeBodies pr out m names (bodies_at bodies cs) ite = Ok (body_files cs ite).
Proof.
  intros Hs. unfold writeBodies.
  rewrite (mapM_ok _ (fun nb => (body_path out (fst nb) ite (m_dim m), points_file pr (snd (snd nb))))).
  - f_equal. unfold body_files. pose proof (shape_len _ _ Hs) as L. assert (L2 : List.length names = List.length cs) by (unfold lenZ in Hl; lia).
    rewrite <- (at_snd bodies cs L) at 2. clear. generalize (bodies_at bodies cs). intros l. revert l. induction names as [|n t IH]; intros [|b l]; try reflexivity.
    cbn [combine map fst snd]. f_equal. apply IH.
  - intros [nm bc] Hin. cbn [fst snd]. apply in_combine_r in Hin. now rewrite (one_body cs bc Hs Hin).
Qed.
Lemma files_paths cs ite p : In p (map fst (body_files cs ite)) -> exists nm, In nm names /\ p = body_path out nm ite (m_dim m).
Proof.
  unfold body_files. rewrite map_map. intros H. apply in_map_iff in H. destruct H as ([nm c] & <- & H). apply in_combine_l in H. exists nm. auto.
Qed.
Lemma files_NoDup cs ite : (0 <= ite)%Z -> NoDup (map fst (body_files cs ite)).
Proof.
  intros Hi. unfold body_files. rewrite map_map. cbn [fst]. revert cs. clear Hl. induction names as [|n t IH]; intros [|c cs]; try constructor.
  - intros H. apply in_map_iff in H. destruct H as ([n' c'] & E & H). cbn [fst] in E. apply body_path_inj in E; auto. destruct E as [-> _].
    apply in_combine_l in H. inversion Hn; auto.
  - inversion Hn; subst. now apply IH.
Qed.
Lemma combine_nth {A B} (l : list A) (l' : list B) i a b : nthZ l i = Some a -> nthZ l' i = Some b -> In (a, b) (combine l l').
Proof.
  revert l' i. induction l as [|x t IH]; intros [|y t'] i Ha Hb.
  - unfold nthZ in Ha. destruct (i <? 0)%Z; [discriminate|]. destruct (Z.to_nat i); discriminate.
  - unfold nthZ in Ha. destruct (i <? 0)%Z; [discriminate|]. destruct (Z.to_nat i); discriminate.
  - unfold nthZ in Hb. destruct (i <? 0)%Z; [discriminate|]. destruct (Z.to_nat i); discriminate.
  - pose proof (nthZ_Some_range _ _ _ Ha) as Hr. destruct (Z.eq_dec i 0) as [->|].
    + rewrite nthZ_cons_0 in Ha. rewrite nthZ_cons_0 in Hb. injection Ha as <-. injection Hb as <-. now left.
    + rewrite nthZ_cons_pos in Ha by lia. rewrite nthZ_cons_pos in Hb by lia. right. eauto.
Qed.
Lemma files_at cs ite b nm c : (0 <= ite)%Z -> nthZ names b = Some nm -> nthZ cs b = Some c ->
  on_disk (body_files cs ite) (body_path out nm ite (m_dim m)) = Some (points_file pr c).
Proof.
  intros Hi En Ec. apply disk_one; [now apply files_NoDup|]. unfold body_files. apply in_map_iff. exists (nm, c). split; [reflexivity|]. eapply combine_nth; eauto.
Qed.
Lemma files_other cs ite nm i : (0 <= ite)%Z -> (0 <= i)%Z -> ite <> i -> on_disk (body_files cs ite) (body_path out nm i (m_dim m)) = None.
Proof.
  intros Hi Hi' Hne. apply disk_none. intros H. apply files_paths in H. destruct H as (nm' & _ & E). apply body_path_inj in E; auto. destruct E as [_ E]. congruence.
Qed.
End Files.

(** * A run *)
Section Run.
Variables (m : mesh) (D : dec) (P : nspar) (types : Z -> Z -> bctype) (values : Z -> Z -> R).
Hypotheses (Hset : mesh_setup m D) (Hb : bc_fits m types).
Variables (name : string) (bodies : list (body * list (list R))) (mo : motion) (pos : R -> list (list (list R))) (vel : R -> Z -> Z -> Z -> R).
Hypotheses (Hbo : bodies_ok m D bodies) (Hmo : prescribed m D bodies mo pos vel).
Variables (conv : boundary -> vec -> res vec) (vs ps : vec -> vec -> vec) (fsolve : mat -> vec -> vec -> vec).
Variables (pr : R -> string) (out : string) (names : list string) (nsave : Z).
Hypotheses (Hn : NoDup names) (Hl : lenZ names = lenZ bodies).
Notation step O := (r_advance m D P O name mo conv vs ps fsolve).
Let Hd : (m_dim m = 2 \/ m_dim m = 3)%Z := mf_dim _ _ (setup_facts m D Hset).

Lemma initial_files t0 n0 U0 p0 O s0 : r_init m D P types values name bodies t0 n0 U0 p0 = Ok (O, s0) ->
  r_ioInitial pr out m names s0 = Ok (body_files m pr out names (map snd bodies) n0).
Proof.
  intros HI. destruct (r_init_inv m D P types values Hset Hb name bodies _ _ _ _ _ _ HI) as (B & X & x0 & _ & _ & _ & _ & -> & _ & En).
  unfold r_ioInitial. cbn [r_bodies r_x]. rewrite En. rewrite <- (at_self bodies) at 1. apply (writeBodies_files m D); auto. apply shape_refl.
Qed.
Lemma drive_run O s0 k s w : r_drive k pr out m names nsave (step O) s0 = Ok (s, w) -> run_steps (step O) k s0 = Ok s.
Proof.
  revert s w. induction k as [|k IH]; intros s w H; [injection H as -> _; reflexivity|]. cbn [r_drive] in H.
  apply bind_ok_inv in H. destruct H as ([s1 w1] & E1 & H). apply bind_ok_inv in H. destruct H as (s2 & E2 & H). apply bind_ok_inv in H. destruct H as (w2 & _ & H). injection H as -> _.
  cbn [run_steps]. rewrite (IH _ _ E1). exact E2.
Qed.
Lemma drive_total t0 n0 U0 p0 O s0 k s : nsave <> 0%Z -> r_init m D P types values name bodies t0 n0 U0 p0 = Ok (O, s0) ->
  run_steps (step O) k s0 = Ok s -> exists w, r_drive k pr out m names nsave (step O) s0 = Ok (s, w).
Proof.
  intros Hne HI. revert s. induction k as [|k IH]; intros s H; [injection H as ->; exists []; reflexivity|]. pose proof H as HS. cbn [run_steps] in H.
  apply bind_ok_inv in H. destruct H as (s1 & E1 & E2). destruct (IH _ E1) as (w1 & Ew). cbn [r_drive]. rewrite Ew. cbn [bind]. rewrite E2. cbn [bind].
  destruct (r_steps m D P types values Hset Hb name bodies mo pos vel Hmo conv vs ps fsolve _ _ _ _ _ _ _ _ HI HS) as ((cs & Hsh & EB) & _).
  unfold r_write. rewrite (proj2 (Z.eqb_neq nsave 0) Hne), EB. destruct (_ =? 0)%Z; [|eexists; reflexivity]. rewrite (writeBodies_files m D) by auto. eexists. reflexivity.
Qed.
Lemma drive_files t0 n0 U0 p0 O s0 k s w w0 : (0 <= n0)%Z -> r_init m D P types values name bodies t0 n0 U0 p0 = Ok (O, s0) ->
  r_ioInitial pr out m names s0 = Ok w0 -> r_drive k pr out m names nsave (step O) s0 = Ok (s, w) ->
  forall i b nm, (0 <= i)%Z -> nthZ names b = Some nm ->
    on_disk (w0 ++ w) (body_path out nm i (m_dim m)) =
    if (i =? n0)%Z then option_map (fun bc => points_file pr (snd bc)) (nthZ bodies b)
    else if ((n0 <? i) && (i <=? n0 + Z.of_nat k) && (Z.rem i nsave =? 0))%Z then option_map (points_file pr) (nthZ (pos (t0 + IZR (i - n0) * p_dt P)) b)
    else None.
Proof.
  intros H0 HI E0 H i b nm Hi En. rewrite (initial_files _ _ _ _ _ _ HI) in E0. injection E0 as <-.
  revert s w H. induction k as [|k IH]; intros s w H.
  - injection H as _ <-. rewrite app_nil_r. replace ((n0 <? i) && (i <=? n0 + Z.of_nat 0))%Z with false by lia. cbn [andb].
    destruct (Z.eqb_spec i n0) as [->|Hne]; [|apply files_other; auto]. destruct (nthZ bodies b) as [bc|] eqn:Eb.
    + cbn [option_map]. apply files_at with (b := b); auto. now rewrite nthZ_map, Eb.
    + exfalso. pose proof (nthZ_Some_range _ _ _ En). destruct (nthZ_in_range bodies b) as [x Hx]; [lia|congruence].
  - pose proof H as HD. cbn [r_drive] in H.
    apply bind_ok_inv in H. destruct H as ([s1 w1] & E1 & H). apply bind_ok_inv in H. destruct H as (s2 & E2 & H). apply bind_ok_inv in H. destruct H as (w2 & Ew & H).
    injection H as -> <-. apply drive_run in HD. specialize (IH _ _ E1). rewrite app_assoc, disk_app.
    destruct (moving_state m D P types values Hset Hb name bodies mo pos vel Hmo conv vs ps fsolve _ _ _ _ _ _ _ _ HI HD) as (_ & EN & EB & _).
    unfold r_write in Ew. rewrite EN, EB in Ew. destruct (Z.eqb_spec nsave 0) as [|Hs]; [discriminate|].
    set (t := t0 + INR (S k) * p_dt P) in *. set (n := (n0 + Z.of_nat (S k))%Z) in *.
    pose proof (shape_pos m D bodies mo pos vel Hmo t) as Hsh.
    destruct (Z.eqb_spec (Z.rem n nsave) 0) as [Hrem|Hrem].
    + rewrite (writeBodies_files m D) in Ew by auto. injection Ew as <-. destruct (Z.eq_dec i n) as [->|Hne].
      * replace (n =? n0)%Z with false by lia. replace ((n0 <? n) && (n <=? n))%Z with true by lia. replace (Z.rem n nsave =? 0)%Z with true by lia. cbn [andb].
        replace (t0 + IZR (n - n0) * p_dt P) with t by (unfold t, n; rewrite INR_IZR_INZ; do 3 f_equal; lia).
        assert (Hbr : (0 <= b < lenZ (pos t))%Z).
        { pose proof (nthZ_Some_range _ _ _ En). pose proof (shape_len _ _ Hsh). unfold lenZ in *. lia. }
        destruct (nthZ_in_range (pos t) b Hbr) as [c Ec]. rewrite (files_at m pr out names Hd Hn (pos t) n b nm c) by (auto; lia). rewrite Ec. reflexivity.
      * rewrite (files_other m pr out names Hd (pos t) n nm i) by (auto; lia). rewrite IH. destruct (Z.eqb_spec i n0); [reflexivity|].
        replace (i <=? n0 + Z.of_nat k)%Z with (i <=? n)%Z by lia. reflexivity.
    + injection Ew as <-. cbn [on_disk fold_left]. rewrite IH. destruct (Z.eqb_spec i n0); [reflexivity|].
      destruct (Z.eq_dec i n) as [->|Hne]; [|replace (i <=? n0 + Z.of_nat k)%Z with (i <=? n)%Z by lia; reflexivity].
      replace (Z.rem n nsave =? 0)%Z with false by lia. now rewrite !andb_false_r.
Qed.
End Run.
