From Coq Require Import ZifyBool String.
From Verif Require Import Prelude ZSum RSum TypesModel GridModel GridSpec GridProof MeshProof
  IndexModel IndexSpec IndexProof BoundaryModel BoundarySpec BoundaryProof OperatorModel OperatorSpec OperatorProof BStateProof LapProof AdjProof
  MatModel BnModel NSModel NSSpec NSProof NSTotal NameModel NameProof DriverModel DriverSpec.
Local Open Scope R_scope.

(** * Operations on files *)
Lemma apply_other d o p : op_path o <> p -> apply_op d o p = d p.
Proof.
  intros H. destruct o as [q|q|q nm l|q t|q n|q]; cbn [op_path] in H; cbn [apply_op]; unfold dset; try (destruct (String.eqb_spec q p); [contradiction|reflexivity]); reflexivity.
Qed.
Lemma run_other ops d p : (forall o, In o ops -> op_path o <> p) -> run_ops ops d p = d p.
Proof.
  revert d. induction ops as [|o t IH]; intros d H; [reflexivity|]. cbn [run_ops fold_left].
  change (fold_left apply_op t (apply_op d o)) with (run_ops t (apply_op d o)). rewrite IH by (intros; apply H; now right). apply apply_other. apply H. now left.
Qed.
Lemma run_app a b d : run_ops (a ++ b) d = run_ops b (run_ops a d).
Proof. unfold run_ops. apply fold_left_app. Qed.

Definition puts (path : string) (l : list (string * list R)) : list fsop := map (fun x => Put path (fst x) (snd x)) l.
Lemma puts_file path l d F : d path = Some F -> exists F', run_ops (puts path l) d path = Some F' /\ f_time F' = f_time F /\ f_text F' = f_text F /\
  (forall nm, ~ In nm (map fst l) -> f_sets F' nm = f_sets F nm) /\
  (NoDup (map fst l) -> forall nm data, In (nm, data) l -> f_sets F' nm = Some data).
Proof.
  revert d F. induction l as [|[nm data] t IH]; intros d F HF.
  - exists F. repeat split; auto. intros _ nm data [].
  - cbn [puts map fst snd run_ops fold_left]. fold (puts path t). change (fold_left apply_op (puts path t) ?x) with (run_ops (puts path t) x).
    set (F1 := mkFile (fun q => if String.eqb nm q then Some data else f_sets F q) (f_time F) (f_text F)).
    assert (H1 : apply_op d (Put path nm data) path = Some F1).
    { cbn [apply_op]. unfold dset. rewrite String.eqb_refl. unfold dget. rewrite HF. reflexivity. }
    destruct (IH _ _ H1) as (F' & E & Ht & Hx & Ho & Hi). exists F'. split; [exact E|]. split; [exact Ht|]. split; [exact Hx|]. split.
    + intros q Hq. rewrite Ho by (intros C; apply Hq; now right). cbn [F1 f_sets]. destruct (String.eqb_spec nm q) as [->|]; [|reflexivity]. exfalso. apply Hq. now left.
    + intros Nd q dq [E1|Hin].
      * injection E1 as -> ->. inversion Nd; subst. rewrite Ho by auto. cbn [F1 f_sets]. now rewrite String.eqb_refl.
      * inversion Nd; subst. apply Hi; auto.
Qed.

(** * Layouts *)
Lemma pair_eqb_spec a b : pair_eqb a b = true <-> a = b.
Proof. destruct a as [a1 a2], b as [b1 b2]. unfold pair_eqb. cbn [fst snd]. split; intros H; [f_equal; lia|injection H as -> ->; lia]. Qed.
Lemma packed_order_map m D : packed_order m D = map (fun fp => (fst fp, natural (m_n m (fst fp)) (snd fp))) (packed_layout (m_dim m) D).
Proof.
  assert (FM : forall {A B C} (g : A -> list B) (h : B -> C) l, map h (flat_map g l) = flat_map (fun a => map h (g a)) l).
  { intros A B C g h l. induction l as [|x t IH]; [reflexivity|]. cbn [flat_map]. now rewrite map_app, IH. }
  unfold packed_order, packed_layout. rewrite FM. apply flat_map_ext. intros r. rewrite FM. apply flat_map_ext. intros f. rewrite map_map. reflexivity.
Qed.
Lemma dec_all_facts m D : mfacts m D -> dec_all (m_dim m) D (m_n m).
Proof. intros F f Hf. apply (mf_dec _ _ F). now left. Qed.
Lemma layout_interior m D i f p : mfacts m D -> nthZ (packed_layout (m_dim m) D) i = Some (f, p) -> (0 <= f < m_dim m)%Z /\ interior (m_n m f) p.
Proof. intros F H. apply (packed_layout_In (m_dim m) D (m_n m)); [now apply dec_all_facts|]. eapply nthZ_In; eauto. Qed.
Lemma layout_find m D i f p : mfacts m D -> nthZ (packed_layout (m_dim m) D) i = Some (f, p) ->
  findpos pair_eqb (f, natural (m_n m f) p) (packed_order m D) 0 = Some i.
Proof.
  intros F H. pose proof (dec_all_facts m D F) as Hd.
  assert (Hin : In (f, natural (m_n m f) p) (packed_order m D)).
  { rewrite packed_order_map. apply nthZ_In in H. apply (in_map (fun fp => (fst fp, natural (m_n m (fst fp)) (snd fp)))) in H. exact H. }
  destruct (findpos_In pair_eqb pair_eqb_spec _ _ 0%Z Hin) as [k Hk]. rewrite Hk. f_equal.
  apply (findpos_Some pair_eqb pair_eqb_spec) in Hk. destruct Hk as [_ Hk]. rewrite Z.sub_0_r in Hk.
  rewrite packed_order_map in Hk. apply map_nthZ_inv in Hk. destruct Hk as ([g q] & Hk & E). cbn [fst snd] in E. injection E as -> E.
  pose proof (layout_interior _ _ _ _ _ F H) as [_ I1]. pose proof (layout_interior _ _ _ _ _ F Hk) as [_ I2].
  apply natural_inj in E; auto. subst q. eapply nthZ_NoDup_inj; [|exact Hk|exact H]. now apply packed_layout_NoDup with (n := m_n m).
Qed.
Lemma npoints_nonneg m D f : mfacts m D -> (0 <= f < m_dim m \/ f = 3)%Z -> (0 <= npoints (m_n m f))%Z.
Proof. intros F Hf. destruct (mf_sizes _ _ F f Hf) as (_ & A & B & C & _). unfold npoints. nia. Qed.
Lemma natural_in m D f p : mfacts m D -> (0 <= f < m_dim m \/ f = 3)%Z -> interior (m_n m f) p -> (0 <= natural (m_n m f) p < npoints (m_n m f))%Z.
Proof. intros F Hf Hp. destruct (mf_sizes _ _ F f Hf) as (_ & A & B & C & _). destruct p as [[i j] k]. now apply natural_range. Qed.

Lemma component_holds m D U f : mfacts m D -> (0 <= f < m_dim m)%Z ->
  lenZ (component_data m D U f) = npoints (m_n m f) /\
  forall i p, nthZ (packed_layout (m_dim m) D) i = Some (f, p) -> nthZ (component_data m D U f) (natural (m_n m f) p) = Some (U i).
Proof.
  intros F Hf. unfold component_data. rewrite lenZ_map, zrange_lenZ by (eapply npoints_nonneg; eauto). split; [lia|].
  intros i p H. destruct (layout_interior _ _ _ _ _ F H) as [_ I]. rewrite nthZ_map, nthZ_zrange by (rewrite Z.sub_0_r; eapply natural_in; eauto).
  cbn [option_map]. rewrite Z.add_0_l. now rewrite (layout_find m D i f p F H).
Qed.
Lemma pressure_holds m D y : mfacts m D ->
  lenZ (pressure_data m D y) = npoints (m_n m 3) /\
  forall i p, nthZ (field_layout D 3) i = Some p -> nthZ (pressure_data m D y) (natural (m_n m 3) p) = Some (y i).
Proof.
  intros F. pose proof (mf_dec _ _ F 3 (or_intror eq_refl)) as Hd. unfold pressure_data.
  rewrite lenZ_map, zrange_lenZ by (eapply npoints_nonneg; eauto). split; [lia|].
  intros i p H. pose proof (nthZ_In _ _ _ H) as Hin. apply (field_layout_In D (m_n m 3)) in Hin; auto.
  rewrite nthZ_map, nthZ_zrange by (rewrite Z.sub_0_r; eapply natural_in; eauto).
  cbn [option_map]. rewrite Z.add_0_l. f_equal.
  assert (In (natural (m_n m 3) p) (petsc_order D (m_n m 3) 3)) as I2 by (rewrite petsc_order_map; apply in_map; eapply nthZ_In; eauto).
  destruct (findpos_In Z.eqb Z.eqb_eq _ _ 0%Z I2) as [k Hk]. rewrite Hk. f_equal. apply (findpos_Some Z.eqb Z.eqb_eq) in Hk. destruct Hk as [_ Hk].
  rewrite Z.sub_0_r, petsc_order_map in Hk. apply map_nthZ_inv in Hk. destruct Hk as (q & Hk & E).
  pose proof (nthZ_In _ _ _ Hk) as Hin2. apply (field_layout_In D (m_n m 3)) in Hin2; auto.
  apply natural_inj in E; auto. subst q. eapply nthZ_NoDup_inj; [|exact Hk|exact H]. now apply field_layout_NoDup with (n := m_n m 3).
Qed.

(** * Names of datasets *)
Lemma set_name_inj f g : (0 <= f < 3)%Z -> (0 <= g < 3)%Z -> set_name f = set_name g -> f = g.
Proof.
  intros Hf Hg. assert (f = 0 \/ f = 1 \/ f = 2)%Z as [->|[->| ->]] by lia; assert (g = 0 \/ g = 1 \/ g = 2)%Z as [->|[->| ->]] by lia; cbn; intros; congruence || discriminate.
Qed.
Lemma set_name_p f : (0 <= f < 3)%Z -> set_name f <> "/p"%string.
Proof. intros Hf. assert (f = 0 \/ f = 1 \/ f = 2)%Z as [->|[->| ->]] by lia; discriminate. Qed.
Lemma to_string_inj i j : (0 <= i)%Z -> (0 <= j)%Z -> to_string i = to_string j -> i = j.
Proof.
  intros Hi Hj. unfold to_string. replace (i <? 0)%Z with false by lia. replace (j <? 0)%Z with false by lia. intros E.
  rewrite <- (decimal_val i Hi), <- (decimal_val j Hj). now rewrite E.
Qed.
Lemma history_name_inj g i j : (0 <= i)%Z -> (0 <= j)%Z -> history_name g i = history_name g j -> i = j.
Proof. intros Hi Hj E. unfold history_name in E. apply str_app_inj_l in E. cbn [String.append] in E. injection E as E. now apply to_string_inj. Qed.
Lemma conv_not_diff i j : history_name "/convection" i <> history_name "/diffusion" j.
Proof. intros E. cbn in E. discriminate. Qed.
Lemma set_not_history f : (0 <= f < 3)%Z -> ~ is_history (set_name f).
Proof. intros Hf (i & [E|E]); assert (f = 0 \/ f = 1 \/ f = 2)%Z as [->|[->| ->]] by lia; cbn in E; discriminate. Qed.
Lemma p_not_history : ~ is_history "/p".
Proof. intros (i & [E|E]); cbn in E; discriminate. Qed.

(** * Writing the solution *)
Definition sol_sets (m : mesh) (D : dec) (U p : vec) : list (string * list R) :=
  map (fun f => (set_name f, component_data m D U f)) (zrange 0 (m_dim m)) ++ [("/p"%string, pressure_data m D p)].
Lemma solution_write_eq m D path U p : solution_write m D path U p = [OpenNew path] ++ puts path (sol_sets m D U p) ++ [Close path].
Proof. unfold solution_write, puts, sol_sets. rewrite map_app, map_map. cbn [map fst snd app]. now rewrite <- app_assoc. Qed.
Lemma sol_sets_NoDup m D U p : mfacts m D -> NoDup (map fst (sol_sets m D U p)).
Proof.
  intros F. unfold sol_sets. rewrite map_app, map_map. cbn [map fst]. assert (m_dim m <= 3)%Z by (destruct (mf_dim _ _ F); lia).
  apply NoDup_app; [|constructor; [intros []|constructor]|].
  - pose proof (zrange_NoDup 0 (m_dim m)) as Hn. assert (HH : forall x, In x (zrange 0 (m_dim m)) -> (0 <= x < 3)%Z) by (intros x Hx; apply zrange_In in Hx; lia).
    induction (zrange 0 (m_dim m)) as [|a t IH]; [constructor|]. inversion Hn; subst. cbn [map]. constructor.
    + intros C. apply in_map_iff in C. destruct C as (b & E & Hb). apply set_name_inj in E; [|apply HH; now right|apply HH; now left]. subst. contradiction.
    + apply IH; auto. intros; apply HH. now right.
  - intros x Hx [<-|[]]. apply in_map_iff in Hx. destruct Hx as (f & E & Hf). apply zrange_In in Hf. apply (set_name_p f); [lia|auto].
Qed.
Lemma solution_write_file m D path U p d : mfacts m D -> exists F, run_ops (solution_write m D path U p) d path = Some F /\
  holds_velocity m D U F /\ holds_pressure m D p F.
Proof.
  intros HF. rewrite solution_write_eq, !run_app. change (run_ops [Close path] ?x) with x.
  assert (H0 : run_ops [OpenNew path] d path = Some empty_file) by (cbn; unfold dset; now rewrite String.eqb_refl).
  destruct (puts_file path (sol_sets m D U p) _ _ H0) as (F & E & _ & _ & _ & Hi). specialize (Hi (sol_sets_NoDup m D U p HF)).
  exists F. split; [exact E|]. split.
  - intros f Hf. exists (component_data m D U f). split; [|now apply component_holds].
    apply Hi. apply in_app_iff. left. apply (in_map (fun f => (set_name f, component_data m D U f))). now apply zrange_In.
  - exists (pressure_data m D p). split; [|now apply pressure_holds]. apply Hi. apply in_app_iff. right. now left.
Qed.
Lemma write_solution_file m D path s d : mfacts m D -> exists F, run_ops (write_solution m D path s) d path = Some F /\ holds_solution m D s F.
Proof.
  intros HF. unfold write_solution. rewrite run_app. destruct (solution_write_file m D path (s_U s) (s_p s) d HF) as (F & E & Hv & Hp).
  set (d1 := run_ops (solution_write m D path (s_U s) (s_p s)) d) in *.
  exists (mkFile (f_sets F) (Some (s_t s)) (f_text F)). split; [|split; [exact Hv|split; [exact Hp|reflexivity]]].
  cbn [run_ops fold_left apply_op]. unfold dset, dget. rewrite !String.eqb_refl, E. reflexivity.
Qed.
Lemma solution_write_paths m D path U p o : In o (solution_write m D path U p) -> op_path o = path.
Proof.
  rewrite solution_write_eq. intros H. apply in_app_iff in H. destruct H as [[<-|[]]|H]; [reflexivity|]. apply in_app_iff in H. destruct H as [H|[<-|[]]]; [|reflexivity].
  unfold puts in H. apply in_map_iff in H. destruct H as (x & <- & _). reflexivity.
Qed.
Lemma write_solution_paths m D path s o : In o (write_solution m D path s) -> op_path o = path.
Proof. intros H. apply in_app_iff in H. destruct H as [H|[<-|[<-|[<-|[]]]]]; try reflexivity. eapply solution_write_paths; eauto. Qed.

(** * Histories *)
Definition slot_sets (m : mesh) (group : string) (h : list vec) : list (string * list R) :=
  map (fun iv => (history_name group (fst iv), packed_data m (snd iv))) (combine (zrange 0 (lenZ h)) h).
Lemma put_history_eq m path group h : put_history m path group h = puts path (slot_sets m group h).
Proof. unfold put_history, puts, slot_sets. rewrite map_map. reflexivity. Qed.
Lemma combine_slots {A} (h : list A) a i v : nthZ h i = Some v -> In ((a + i)%Z, v) (combine (zrange a (a + lenZ h)) h).
Proof.
  revert a i. induction h as [|x t IH]; intros a i H; [destruct (nthZ_Some_range _ _ _ H) as [A1 A2]; unfold lenZ in A2; cbn in A2; lia|].
  pose proof (lenZ_nonneg t). rewrite lenZ_cons in *. rewrite zrange_cons by lia. cbn [combine].
  pose proof (nthZ_Some_range _ _ _ H) as Hr. destruct (Z.eq_dec i 0) as [->|Hi].
  - rewrite nthZ_cons_0 in H. injection H as ->. left. f_equal. lia.
  - rewrite nthZ_cons_pos in H by lia. right. replace (a + i)%Z with (a + 1 + (i - 1))%Z by lia.
    replace (a + (1 + lenZ t))%Z with (a + 1 + lenZ t)%Z by lia. now apply IH.
Qed.
Lemma combine_fst {A} (h : list A) a : map fst (combine (zrange a (a + lenZ h)) h) = zrange a (a + lenZ h).
Proof.
  revert a. induction h as [|x t IH]; intros a; [cbn; rewrite zrange_nil by (cbn; lia); reflexivity|].
  pose proof (lenZ_nonneg t). rewrite lenZ_cons. rewrite zrange_cons by lia. cbn [combine map fst]. f_equal.
  replace (a + (1 + lenZ t))%Z with (a + 1 + lenZ t)%Z by lia. apply IH.
Qed.
Lemma slot_names m group h : map fst (slot_sets m group h) = map (history_name group) (zrange 0 (lenZ h)).
Proof.
  unfold slot_sets. rewrite map_map. cbn [fst]. rewrite <- (map_map fst (history_name group)). f_equal. exact (combine_fst h 0).
Qed.
Lemma slots_NoDup m group h : NoDup (map fst (slot_sets m group h)).
Proof.
  rewrite slot_names. pose proof (zrange_NoDup 0 (lenZ h)) as Hn. assert (HH : forall x, In x (zrange 0 (lenZ h)) -> (0 <= x)%Z) by (intros x Hx; apply zrange_In in Hx; lia).
  induction (zrange 0 (lenZ h)) as [|a t IH]; [constructor|]. inversion Hn; subst. cbn [map]. constructor.
  - intros C. apply in_map_iff in C. destruct C as (b & E & Hb). apply history_name_inj in E; [|apply HH; now right|apply HH; now left]. subst. contradiction.
  - apply IH; auto. intros; apply HH. now right.
Qed.
Lemma n_velocity_nonneg m D : mfacts m D -> (0 <= n_velocity m)%Z.
Proof. intros F. unfold n_velocity. apply isum_nonneg. intros g Hg. eapply npoints_nonneg; eauto. Qed.
Lemma slots_hold m D group h F : mfacts m D -> (forall nm data, In (nm, data) (slot_sets m group h) -> f_sets F nm = Some data) -> holds_slots m group h F.
Proof.
  intros HF H i v Hv. exists (packed_data m v). split; [|split].
  - apply H. unfold slot_sets. pose proof (combine_slots h 0 i v Hv) as C. rewrite Z.add_0_l in C.
    apply (in_map (fun iv => (history_name group (fst iv), packed_data m (snd iv)))) in C. exact C.
  - unfold packed_data. pose proof (n_velocity_nonneg m D HF). rewrite lenZ_map, zrange_lenZ by lia. lia.
  - intros j Hj. unfold packed_data. rewrite nthZ_map, nthZ_zrange by lia. cbn [option_map]. now rewrite Z.add_0_l.
Qed.
Lemma history_ops_file m D path s d F : mfacts m D -> d path = Some F ->
  exists F', run_ops ([OpenApp path] ++ put_history m path "/convection" (s_conv s) ++ put_history m path "/diffusion" (s_diff s) ++ [Close path]) d path = Some F' /\
    holds_history m s F' /\ f_time F' = f_time F /\ (forall nm, ~ is_history nm -> f_sets F' nm = f_sets F nm).
Proof.
  intros HF E. rewrite !run_app, !put_history_eq. change (run_ops [Close path] ?x) with x.
  assert (E0 : run_ops [OpenApp path] d path = Some F) by (cbn; unfold dset, dget; now rewrite String.eqb_refl, E).
  destruct (puts_file path (slot_sets m "/convection" (s_conv s)) _ _ E0) as (F1 & E1 & T1 & X1 & O1 & I1). specialize (I1 (slots_NoDup _ _ _)).
  destruct (puts_file path (slot_sets m "/diffusion" (s_diff s)) _ _ E1) as (F2 & E2 & T2 & X2 & O2 & I2). specialize (I2 (slots_NoDup _ _ _)).
  exists F2. split; [exact E2|]. split; [split|split; [congruence|]].
  - apply slots_hold with (D := D); auto. intros nm data Hin. rewrite O2; [now apply I1|]. rewrite slot_names. intros C.
    apply in_map_iff in C. destruct C as (j & Ej & _). apply (in_map fst) in Hin. cbn [fst] in Hin. rewrite slot_names in Hin. apply in_map_iff in Hin. destruct Hin as (i & Ei & _).
    rewrite <- Ei in Ej. symmetry in Ej. now apply conv_not_diff in Ej.
  - apply slots_hold with (D := D); auto.
  - intros nm Hn. rewrite O2, O1; [reflexivity| |]; rewrite slot_names; intros C; apply in_map_iff in C; destruct C as (i & <- & _); apply Hn; exists i; auto.
Qed.
Lemma history_keeps_solution m D s F F' : (m_dim m <= 3)%Z -> f_time F' = f_time F -> (forall nm, ~ is_history nm -> f_sets F' nm = f_sets F nm) ->
  holds_solution m D s F -> holds_solution m D s F'.
Proof.
  intros Hd Ht Ho (Hv & Hp & Ht'). split; [|split; [|congruence]].
  - intros f Hf. destruct (Hv f Hf) as (l & E & R). exists l. split; [|exact R]. rewrite Ho; auto. apply set_not_history. lia.
  - destruct Hp as (l & E & R). exists l. split; [|exact R]. rewrite Ho; auto. apply p_not_history.
Qed.
Lemma dim_le3 m D : mfacts m D -> (m_dim m <= 3)%Z.
Proof. intros F. destruct (mf_dim _ _ F); lia. Qed.

(** * One call of write() *)
Lemma write_restart_paths m D path s d o : In o (write_restart m D path s d) -> op_path o = path.
Proof.
  unfold write_restart. intros H. apply in_app_iff in H. destruct H as [H|H].
  - destruct (d path); [destruct H|]. eapply write_solution_paths; eauto.
  - rewrite !put_history_eq in H. unfold puts in H. apply in_app_iff in H. destruct H as [[<-|[]]|H]; [reflexivity|]. apply in_app_iff in H.
    destruct H as [H|H]; [apply in_map_iff in H; destruct H as (x & <- & _); reflexivity|]. apply in_app_iff in H.
    destruct H as [H|[<-|[]]]; [apply in_map_iff in H; destruct H as (x & <- & _); reflexivity|reflexivity].
Qed.

Lemma write_step_inv conf m D mon s d ops : write_step conf m D mon s d = Ok ops ->
  c_nsave conf <> 0%Z /\ c_nrestart conf <> 0%Z /\
  let path := solution_path (c_out conf) (s_ite s) in
  let ops1 := [PutText (iterations_path (c_out conf) (c_nstart conf)) (s_ite s)] in
  let ops2 := if (Z.rem (s_ite s) (c_nsave conf) =? 0)%Z
                then write_solution m D path s ++ [OpenNew (log_path (c_logs conf) (s_ite s)); Close (log_path (c_logs conf) (s_ite s))] else [] in
  let ops3 := if (Z.rem (s_ite s) (c_nrestart conf) =? 0)%Z then write_restart m D path s (run_ops (ops1 ++ ops2) d) else [] in
  ops = ops1 ++ ops2 ++ ops3 ++ mon s.
Proof.
  unfold write_step. intros H. destruct (Z.eqb_spec (c_nsave conf) 0); [discriminate|]. destruct (Z.eqb_spec (c_nrestart conf) 0); [discriminate|].
  injection H as <-. auto.
Qed.
Lemma write_step_total conf m D mon s d : c_nsave conf <> 0%Z -> c_nrestart conf <> 0%Z -> exists ops, write_step conf m D mon s d = Ok ops.
Proof. intros H1 H2. unfold write_step. destruct (Z.eqb_spec (c_nsave conf) 0); [contradiction|]. destruct (Z.eqb_spec (c_nrestart conf) 0); [contradiction|]. eauto. Qed.

Lemma write_step_paths conf m D mon s d ops o k : probes_elsewhere (c_out conf) mon -> (0 <= s_ite s)%Z -> (0 <= k)%Z ->
  write_step conf m D mon s d = Ok ops -> In o ops -> op_path o = solution_path (c_out conf) k -> k = s_ite s.
Proof.
  intros Hm Hs Hk H Hin Ho. destruct (write_step_inv _ _ _ _ _ _ _ H) as (_ & _ & ->). cbv zeta in Hin.
  apply in_app_iff in Hin. destruct Hin as [[<-|[]]|Hin]; [exfalso; exact (iterations_not_solution _ _ _ _ Ho)|].
  apply in_app_iff in Hin. destruct Hin as [Hin|Hin].
  { destruct (_ =? 0)%Z; [|destruct Hin]. apply in_app_iff in Hin. destruct Hin as [Hin|Hin].
    - rewrite (write_solution_paths _ _ _ _ _ Hin) in Ho. apply solution_path_inj in Ho; auto.
    - destruct Hin as [<-|[<-|[]]]; exfalso; exact (log_not_solution _ _ _ _ Ho). }
  apply in_app_iff in Hin. destruct Hin as [Hin|Hin]; [|exfalso; eapply Hm; eauto].
  destruct (_ =? 0)%Z; [|destruct Hin]. rewrite (write_restart_paths _ _ _ _ _ _ Hin) in Ho. apply solution_path_inj in Ho; auto.
Qed.

Definition divides (a b : Z) : bool := (Z.rem b a =? 0)%Z.
Lemma divides_spec a b : a <> 0%Z -> divides a b = true <-> (a | b)%Z.
Proof. intros H. unfold divides. rewrite Z.eqb_eq. apply Z.rem_divide. exact H. Qed.

Lemma write_step_file conf m D mon s d ops : mfacts m D -> probes_elsewhere (c_out conf) mon ->
  write_step conf m D mon s d = Ok ops ->
  let path := solution_path (c_out conf) (s_ite s) in
  let d' := run_ops ops d in
  (divides (c_nsave conf) (s_ite s) = true \/ divides (c_nrestart conf) (s_ite s) = true /\ d path = None ->
     exists F, d' path = Some F /\ holds_solution m D s F /\ (divides (c_nrestart conf) (s_ite s) = true -> holds_history m s F)) /\
  (divides (c_nsave conf) (s_ite s) = false -> divides (c_nrestart conf) (s_ite s) = true -> forall F0, d path = Some F0 ->
     exists F, d' path = Some F /\ holds_history m s F /\ f_time F = f_time F0 /\ forall nm, ~ is_history nm -> f_sets F nm = f_sets F0 nm) /\
  (divides (c_nsave conf) (s_ite s) = false -> divides (c_nrestart conf) (s_ite s) = false -> d' path = d path).
Proof.
  intros HF Hm H. destruct (write_step_inv _ _ _ _ _ _ _ H) as (_ & _ & ->). cbv zeta.
  set (path := solution_path (c_out conf) (s_ite s)).
  assert (Hmon : forall d, run_ops (mon s) d path = d path) by (intros; apply run_other; intros o Ho; exact (Hm s o _ Ho)).
  assert (Hit : forall d, run_ops [PutText (iterations_path (c_out conf) (c_nstart conf)) (s_ite s)] d path = d path).
  { intros. apply run_other. intros o [<-|[]]. cbn [op_path]. apply iterations_not_solution. }
  assert (Hlog : forall d, run_ops [OpenNew (log_path (c_logs conf) (s_ite s)); Close (log_path (c_logs conf) (s_ite s))] d path = d path).
  { intros. apply run_other. intros o [<-|[<-|[]]]; cbn [op_path]; apply log_not_solution. }
  unfold divides.
  set (d1 := run_ops [PutText (iterations_path (c_out conf) (c_nstart conf)) (s_ite s)] d).
  assert (R : forall b (a : list fsop), run_ops (a ++ b ++ mon s) d1 path = run_ops b (run_ops a d1) path).
  { intros b a. rewrite !run_app. apply Hmon. }
  rewrite (run_app [PutText _ _]). fold d1. rewrite R. rewrite (run_app [PutText _ _]). fold d1.
  destruct (Z.rem (s_ite s) (c_nsave conf) =? 0)%Z.
  - set (d2 := run_ops (write_solution m D path s ++ _) d1).
    destruct (write_solution_file m D path s d1 HF) as (F & E & HS).
    assert (E2 : d2 path = Some F) by (unfold d2; rewrite run_app, Hlog; exact E).
    split; [|split; intros; discriminate]. intros _.
    destruct (Z.rem (s_ite s) (c_nrestart conf) =? 0)%Z; [|exists F; split; [exact E2|split; [exact HS|intros; discriminate]]].
    unfold write_restart. rewrite E2. cbn [app]. change (OpenApp path :: ?x) with ([OpenApp path] ++ x).
    destruct (history_ops_file m D path s d2 F HF E2) as (F' & E' & HH & Ht & Ho). exists F'. split; [exact E'|].
    split; [|auto]. eapply history_keeps_solution; eauto. eapply dim_le3; eauto.
  - change (run_ops [] d1) with d1. assert (Ed : d1 path = d path) by apply Hit.
    destruct (Z.rem (s_ite s) (c_nrestart conf) =? 0)%Z.
    + split; [|split].
      * intros [C|[_ Hn]]; [discriminate|]. unfold write_restart. rewrite Ed, Hn.
        destruct (write_solution_file m D path s d1 HF) as (F & E & HS). rewrite run_app.
        destruct (history_ops_file m D path s _ F HF E) as (F' & E' & HH & Ht & Ho). exists F'. split; [exact E'|].
        split; [|auto]. eapply history_keeps_solution; eauto. eapply dim_le3; eauto.
      * intros _ _ F0 HF0. unfold write_restart. rewrite Ed, HF0. cbn [app]. change (OpenApp path :: ?x) with ([OpenApp path] ++ x).
        assert (E0 : d1 path = Some F0) by (rewrite Ed; exact HF0).
        destruct (history_ops_file m D path s d1 F0 HF E0) as (F' & E' & HH & Ht & Ho). exists F'. auto.
      * intros; discriminate.
    + split; [|split]; [intros [C|[C _]]; discriminate|intros; discriminate|]. intros _ _. exact Ed.
Qed.
