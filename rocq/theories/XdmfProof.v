(** Proofs about the XDMF index and what it displays. *)
From Coq Require Import String ZifyBool.
From Verif Require Import Prelude ZSum RSum TypesModel GridModel GridSpec GridProof MeshProof
  IndexModel IndexSpec IndexProof BoundaryModel BoundarySpec BoundaryProof OperatorModel OperatorSpec MatModel NSModel NSSpec NSProof NameModel NameSpec NameProof
  NameProps DriverModel DriverSpec DriverProof DriveProof RestartProof RunProof VortModel VortSpec VortProof GridFile VortFile VortProps XdmfModel XdmfSpec.
Local Open Scope R_scope.

Lemma nthZ_out {A} (l : list A) i : ~ (0 <= i < lenZ l)%Z -> nthZ l i = None.
Proof. intros H. destruct (nthZ l i) eqn:E; [|reflexivity]. apply nthZ_Some_range in E. contradiction. Qed.

Lemma dir2str_axis d : dir2str d = axis_name d.
Proof. reflexivity. Qed.

(** * One entry *)
Lemma item_hdf d dims path name F l : d path = Some F -> f_sets F name = Some l -> lenZ l = size_of dims -> item_values d (HDFItem dims path name) = Some l.
Proof. intros H1 H2 H3. cbn [item_values]. rewrite H1, H2, H3, Z.eqb_refl. reflexivity. Qed.

Lemma display_entry d out name dim n x val F G l t :
  (dim = 2 \/ dim = 3)%Z -> (dim = 2%Z -> n 2%Z = 1%Z) -> (0 <= t)%Z ->
  d (grid_path out) = Some G -> holds_coords name n x G ->
  d (solution_path out t) = Some F -> f_sets F ("/" ++ name)%string = Some l -> lenZ l = npoints n ->
  (forall i j k, interior n (i, j, k) -> exists v, nthZ l (natural n (i, j, k)) = Some v /\ val (i, j, k) v) ->
  displays d (xdmf_grid out name dim n t) dim n x val.
Proof.
  intros Hdim H2 Ht HG HC HF Hl Hn Hv i j k.
  destruct (HC 0%Z ltac:(lia)) as (lx & Ex & Lx & Vx). destruct (HC 1%Z ltac:(lia)) as (ly & Ey & Ly & Vy). destruct (HC 2%Z ltac:(lia)) as (lz & Ez & Lz & Vz).
  set (lz' := if (dim =? 2)%Z then [0] else lz).
  assert (Lz' : lenZ lz' = n 2%Z) by (unfold lz'; destruct (Z.eqb_spec dim 2); [rewrite H2 by assumption; reflexivity|exact Lz]).
  assert (Vz' : (0 <= k < n 2)%Z -> nthZ lz' k = Some (if (dim =? 2)%Z then 0 else x 2%Z k)).
  { intros Hk. unfold lz'. destruct (Z.eqb_spec dim 2) as [E|E]; [|now apply Vz]. rewrite H2 in Hk by exact E. assert (k = 0)%Z as -> by lia. reflexivity. }
  assert (HI : forall a la, lenZ la = n a -> f_sets G (coord_name name a) = Some la -> item_values d (HDFItem [n a] (out ++ "/grid.h5")%string (coord_name name a)) = Some la).
  { intros a la E1 E2. apply (item_hdf _ _ _ _ G); auto. unfold size_of. cbn [fold_right]. lia. }
  assert (HGeo : map (item_values d) (xdmf_geometry out name dim n) = [Some lx; Some ly; Some lz']).
  { unfold xdmf_geometry, lz'. destruct Hdim as [-> | ->]; cbn [Z.eqb Pos.eqb].
    - change (zrange 0 2) with [0; 1]%Z. cbn [map app]. rewrite (HI 0%Z lx), (HI 1%Z ly) by assumption. cbn [item_values]. rewrite H2 by reflexivity. reflexivity.
    - change (zrange 0 3) with [0; 1; 2]%Z. cbn [map app]. rewrite (HI 0%Z lx), (HI 1%Z ly), (HI 2%Z lz) by assumption. reflexivity. }
  assert (HD : item_values d (HDFItem [n 2; n 1; n 0]%Z (fst (xdmf_entry out name t)) ("/" ++ name)%string) = Some l).
  { apply (item_hdf _ _ _ _ F); auto; [now rewrite xdmf_names_agree|]. rewrite Hn. unfold npoints, size_of. cbn [fold_right]. ring. }
  unfold displayed, xdmf_grid. cbn [xg_topology xg_geometry xg_data]. rewrite HGeo, HD, Lx, Ly, Lz', Hn.
  assert (Hnn : (npoints n =? n 2 * n 1 * n 0)%Z = true) by (apply Z.eqb_eq; unfold npoints; ring). rewrite !Z.eqb_refl, Hnn. cbn [andb]. split.
  - intros (Hi & Hj & Hk). rewrite Vx, Vy, Vz' by assumption. destruct (Hv i j k) as (v & Ev & Pv); [repeat split; lia|]. exists v. split; [|exact Pv].
    replace ((k * n 1 + j) * n 0 + i)%Z with (natural n (i, j, k)) by (unfold natural; ring). now rewrite Ev.
  - intros Hout. destruct (nthZ lx i) eqn:Ei; [|reflexivity]. destruct (nthZ ly j) eqn:Ej; [|reflexivity]. destruct (nthZ lz' k) eqn:Ekk; [|reflexivity].
    apply nthZ_Some_range in Ei, Ej, Ekk. exfalso. apply Hout. lia.
Qed.

(** * The list of files *)
Lemma write_all_spec fuel dir dim bg ed step steps : xdmf_steps fuel bg ed step = Some steps ->
  forall fs, write_all_xdmf fuel dir dim bg ed step fs =
    Some (map (fun f => ((dir ++ "/" ++ fst f ++ ".xmf")%string, map (xdmf_grid dir (fst f) dim (snd f)) steps)) fs).
Proof.
  intros E. induction fs as [|[name n] t IH]; [reflexivity|]. cbn [write_all_xdmf map fst snd]. unfold writeSingleXDMF. rewrite E, IH. reflexivity.
Qed.
Lemma write_all_steps fuel dir dim bg ed step f fs docs : write_all_xdmf fuel dir dim bg ed step (f :: fs) = Some docs -> exists steps, xdmf_steps fuel bg ed step = Some steps.
Proof. destruct f as [name n]. cbn [write_all_xdmf]. unfold writeSingleXDMF. destruct (xdmf_steps fuel bg ed step) as [l|]; [eauto|discriminate]. Qed.
Lemma xmf_inj dir a b : (dir ++ "/" ++ a ++ ".xmf")%string = (dir ++ "/" ++ b ++ ".xmf")%string -> a = b.
Proof. intros E. apply str_app_inj_l in E. cbn [String.append] in E. injection E as E. exact (str_app_inj_r' _ _ _ E). Qed.
Lemma xdmf_main_spec fuel m out bg ed step docs : xdmf_main fuel m out bg ed step = Some docs ->
  exists steps, xdmf_steps fuel bg ed step = Some steps /\
    docs = map (fun f => ((out ++ "/" ++ fst f ++ ".xmf")%string, map (xdmf_grid out (fst f) (m_dim m) (snd f)) steps)) (xdmf_fields m).
Proof.
  unfold xdmf_main. intros H. assert (X := H). unfold xdmf_fields in X. cbn [app] in X. apply write_all_steps in X. destruct X as (steps & E). exists steps. split; [exact E|].
  rewrite (write_all_spec _ _ _ _ _ _ _ E) in H. now injection H as <-.
Qed.

(** The field written in a file of the index. *)
Lemma xdmf_In_doc fuel m out bg ed step docs name gs g : xdmf_main fuel m out bg ed step = Some docs -> (0 < step)%Z ->
  In ((out ++ "/" ++ name ++ ".xmf")%string, gs) docs -> In g gs ->
  exists n t, In (name, n) (xdmf_fields m) /\ g = xdmf_grid out name (m_dim m) n t /\ (bg <= t <= ed)%Z /\ (step | t - bg)%Z.
Proof.
  intros H Hst Hin Hg. destruct (xdmf_main_spec _ _ _ _ _ _ _ H) as (steps & E & ->). apply in_map_iff in Hin. destruct Hin as ([nm n] & Ep & Hf). cbn [fst snd] in Ep.
  injection Ep as En <-. apply xmf_inj in En. subst nm. apply in_map_iff in Hg. destruct Hg as (t & <- & Ht). exists n, t. split; [exact Hf|]. split; [reflexivity|].
  now apply (proj1 (xdmf_ends _ _ _ _ _ Hst E)).
Qed.

Lemma field_of m f n : (f = 0 \/ f = 1 \/ f = 2 \/ f = 3)%Z -> In (fd2str f, n) (xdmf_fields m) -> n = m_n m f.
Proof.
  intros Hf Hin. unfold xdmf_fields in Hin. apply in_app_iff in Hin. destruct Hin as [Hin|Hin]; [|destruct (m_dim m =? 3)%Z; [|destruct Hin]];
    cbn [In] in Hin; destruct Hf as [->|[->|[->| ->]]]; cbn in Hin;
    repeat (match goal with H : _ \/ _ |- _ => destruct H as [H|H] end); try contradiction; injection Hin; congruence || discriminate.
Qed.
Lemma vort_field_of m a n : (0 <= a < 3)%Z -> In (vort_group a, n) (xdmf_fields m) -> n = xdmf_wn m a.
Proof.
  intros Ha Hin. unfold xdmf_fields in Hin. apply in_app_iff in Hin. destruct Hin as [Hin|Hin]; [|destruct (m_dim m =? 3)%Z; [|destruct Hin]];
    cbn [In] in Hin; destruct (pt_cases a Ha) as [->|[->| ->]]; cbn in Hin;
    repeat (match goal with H : _ \/ _ |- _ => destruct H as [H|H] end); try contradiction; injection Hin; congruence || discriminate.
Qed.
Lemma vort_sizes_wn m D a d : mesh_setup m D -> component m a -> (0 <= d < 3)%Z -> xdmf_wn m a d = vort_sizes m a d.
Proof.
  intros Hs Ha Hd. destruct (component_k m D a Hs Ha) as (k & Hk & <-). rewrite <- (vort_n_sizes m D) by assumption. unfold xdmf_wn, vort_n.
  rewrite (vort_src_dir _ k d (mf_dim _ _ (setup_facts _ _ Hs)) Hk Hd). reflexivity.
Qed.

(** * The files of a run *)
Lemma grid_not_iterations out n : grid_path out <> iterations_path out n.
Proof.
  intros E. unfold grid_path, iterations_path in E. apply str_app_inj_l in E. discriminate.
Qed.
Lemma str_last_app a b c d x y : (a ++ String x "")%string = (b ++ String y "")%string -> x <> y -> c = d :> Z -> False.
Proof.
  revert b. induction a as [|h a IH]; intros [|h' b] E Hxy Hcd; cbn [String.append] in E.
  - injection E. congruence.
  - injection E as _ E. destruct b; discriminate.
  - injection E as _ E. destruct a; discriminate.
  - injection E as _ E. exact (IH _ E Hxy Hcd).
Qed.
Lemma str_app_assoc (a b c : string) : (a ++ (b ++ c))%string = ((a ++ b) ++ c)%string.
Proof. induction a as [|h a IH]; cbn [String.append]; [reflexivity|now rewrite IH]. Qed.
Lemma grid_not_log out logs n : grid_path out <> log_path logs n.
Proof.
  intros E. unfold grid_path, log_path in E.
  change "/grid.h5"%string with ("/grid.h" ++ "5")%string in E. change ".log"%string with (".lo" ++ "g")%string in E.
  rewrite !str_app_assoc in E. apply (str_last_app _ _ 0 0 _ _) in E; auto. discriminate.
Qed.
Lemma write_step_grid conf m D mon s d ops o : probes_off_grid (c_out conf) mon -> (0 <= s_ite s)%Z ->
  write_step conf m D mon s d = Ok ops -> In o ops -> op_path o <> grid_path (c_out conf).
Proof.
  intros Hm Hs H Hin Ho. destruct (write_step_inv _ _ _ _ _ _ _ H) as (_ & _ & ->). cbv zeta in Hin.
  apply in_app_iff in Hin. destruct Hin as [[<-|[]]|Hin]; [exact (grid_not_iterations _ _ (eq_sym Ho))|].
  apply in_app_iff in Hin. destruct Hin as [Hin|Hin].
  { destruct (_ =? 0)%Z; [|destruct Hin]. apply in_app_iff in Hin. destruct Hin as [Hin|Hin].
    - rewrite (write_solution_paths _ _ _ _ _ Hin) in Ho. exact (grid_not_solution _ _ Hs (eq_sym Ho)).
    - destruct Hin as [<-|[<-|[]]]; exact (grid_not_log _ _ _ (eq_sym Ho)). }
  apply in_app_iff in Hin. destruct Hin as [Hin|Hin]; [|exact (Hm _ _ Hin Ho)].
  destruct (_ =? 0)%Z; [|destruct Hin]. rewrite (write_restart_paths _ _ _ _ _ _ Hin) in Ho. exact (grid_not_solution _ _ Hs (eq_sym Ho)).
Qed.
Lemma run_grid m D P types values t0 U0 p0 conv vs ps conf mon fuel d s2 d2 tr : mesh_setup m D ->
  ns_main fuel conf m D P types values t0 U0 p0 mon conv vs ps d = Ok (Some (s2, d2, tr)) ->
  probes_off_grid (c_out conf) mon -> (0 <= c_nstart conf)%Z ->
  exists ops, mesh_write m (grid_path (c_out conf)) = Ok ops /\ d2 (grid_path (c_out conf)) = run_ops ops d (grid_path (c_out conf)).
Proof.
  intros Hset Hm Hpr H0. destruct (mesh_file m D (grid_path (c_out conf)) d Hset) as (ops & G & Ew & _). exists ops. split; [exact Ew|].
  destruct (main_inv _ _ _ _ _ _ _ _ _ _ _ _ _ _ _ _ _ _ Hm) as (o & s0 & s1 & w & tr' & EI & EIO & ED & -> & Hi & Hw0 & Hw).
  assert (Hst : started conf m D P types values t0 U0 p0 d o s1) by (exists s0, w; auto).
  destruct (run_length_lemma m D P types values t0 U0 p0 conv vs ps conf mon fuel d s2 d2 _ o s1 Hst Hm) as (_ & _ & _ & _ & _ & ->).
  rewrite run_app. rewrite run_other.
  - unfold init_ops. rewrite Ew, run_app. apply run_other. intros x [<-|[]]. exact (fun E => grid_not_iterations _ _ (eq_sym E)).
  - intros x Hx. unfold trace_ops in Hx. cbn [flat_map snd] in Hx. apply in_app_iff in Hx. destruct Hx as [Hx|Hx].
    + destruct (Z.eq_dec (c_nstart conf) 0) as [E|E]; [|rewrite (Hw E) in Hx; destruct Hx].
      destruct (Hw0 E) as [_ ->]. rewrite (write_solution_paths _ _ _ _ _ Hx). exact (fun X => grid_not_solution _ _ (Z.le_refl 0) (eq_sym X)).
    + apply in_flat_map in Hx. destruct Hx as ([k ops'] & Hin & Hx). cbn [snd] in Hx. apply in_split in Hin. destruct Hin as (tr1 & tr2 & E).
      destruct (drive_split _ _ _ _ _ _ _ _ _ _ _ _ _ _ _ ED _ _ _ _ E) as (sj & Ej & -> & Ew'). eapply write_step_grid; [exact Hpr| |exact Ew'|exact Hx].
      destruct (steps_ite _ _ _ _ _ _ _ _ _ _ Ej) as [Hj _]. lia.
Qed.

(** * Start of a restarted run *)
Lemma load_inv d path name len l : load d path name len = Ok l -> exists F, d path = Some F /\ f_sets F name = Some l /\ lenZ l = len.
Proof.
  unfold load. destruct (d path) as [F|]; [|discriminate]. destruct (f_sets F name) as [l'|] eqn:E; [|discriminate].
  destruct (Z.eqb_spec (lenZ l') len); [|discriminate]. intros H. injection H as <-. eauto.
Qed.
Lemma read_holds m D path d U p U' p' : mesh_setup m D -> solution_read m D path d U p = Ok (U', p') ->
  exists F, d path = Some F /\ holds_velocity m D U' F /\ holds_pressure m D p' F.
Proof.
  intros Hset H. pose proof (setup_facts _ _ Hset) as Fm. unfold solution_read in H. apply bind_ok_inv in H. destruct H as (ls & Els & H). apply bind_ok_inv in H. destruct H as (lp & Elp & H).
  injection H as <- <-. destruct (load_inv _ _ _ _ _ Elp) as (F & EF & ES & EL). exists F. split; [exact EF|]. split.
  - intros f Hf. destruct (proj2 (mapM_inv _ _ _ Els) f f) as (l & El & Enl); [rewrite nthZ_zrange by lia; f_equal; lia|].
    destruct (load_inv _ _ _ _ _ El) as (F' & EF' & ES' & EL'). assert (F' = F) by congruence. subst F'. exists l. split; [exact ES'|]. split; [exact EL'|].
    intros i q Hi. rewrite packed_order_map, nthZ_map, Hi. cbn [option_map fst snd]. rewrite Enl.
    destruct (layout_interior _ _ _ _ _ Fm Hi) as [Hff Hin].
    destruct (nthZ_in_range l (natural (m_n m f) q)) as [y Hy]; [rewrite EL'; eapply natural_in; eauto|]. now rewrite Hy.
  - exists lp. split; [exact ES|]. split; [exact EL|]. intros i q Hi. rewrite petsc_order_map, nthZ_map, Hi. cbn [option_map].
    assert (Hin : interior (m_n m 3) q) by (apply (field_layout_In D (m_n m 3) 3 q (mf_dec _ _ Fm 3 (or_intror eq_refl))); eapply nthZ_In; exact Hi).
    destruct (nthZ_in_range lp (natural (m_n m 3) q)) as [y Hy]; [rewrite EL; eapply natural_in; eauto|]. now rewrite Hy.
Qed.
Lemma run_entry m D P types values t0 U0 p0 conv vs ps conf mon fuel d s2 d2 tr ops s1 t :
  mesh_setup m D -> started conf m D P types values t0 U0 p0 d ops s1 ->
  ns_main fuel conf m D P types values t0 U0 p0 mon conv vs ps d = Ok (Some (s2, d2, tr)) ->
  probes_elsewhere (c_out conf) mon -> (0 <= c_nstart conf)%Z -> (0 < c_nsave conf)%Z -> c_nrestart conf <> 0%Z ->
  (c_nstart conf <= t <= c_nstart conf + c_nt conf)%Z -> (c_nsave conf | t)%Z ->
  exists st F, ns_steps m D P ops conv vs ps (Z.to_nat (t - c_nstart conf)) s1 = Ok st /\ d2 (solution_path (c_out conf) t) = Some F /\
    holds_velocity m D (s_U st) F /\ holds_pressure m D (s_p st) F.
Proof.
  intros Hset Hst Hm Hpr H0 Hsv Hrs Hr Hdt.
  destruct (run_length_lemma m D P types values t0 U0 p0 conv vs ps conf mon fuel d s2 d2 tr ops s1 Hst Hm) as (Hi & Hk & _).
  destruct (run_files_lemma m D P types values t0 U0 p0 conv vs ps conf mon fuel d s2 d2 tr ops s1 Hset Hst Hm Hpr H0 ltac:(lia) Hrs) as (A & B & C).
  set (k := Z.to_nat (t - c_nstart conf)).
  assert (Ek : Z.to_nat (c_nt conf) = (k + (Z.to_nat (c_nt conf) - k))%nat) by lia. rewrite Ek, steps_add in Hk. apply bind_ok_inv in Hk. destruct Hk as (st & Est & _).
  exists st. destruct (Z.eq_dec t (c_nstart conf)) as [E|E].
  - assert (k = 0)%nat as K0 by lia. rewrite K0 in *. injection Est as <-.
    destruct (Z.eq_dec (c_nstart conf) 0) as [E0|E0].
    + destruct (C E0) as (F & EF & HF & HP & _). exists F. rewrite E, E0. auto.
    + destruct Hst as (s0 & w & E1 & E2). unfold io_initial in E2. destruct (ns_init_step _ _ _ _ _ _ _ 0 _ _ _ _ E1) as [Hi0 _]. rewrite Hi0 in E2.
      destruct (Z.eqb_spec (c_nstart conf) 0); [contradiction|]. apply bind_ok_inv in E2. destruct E2 as (s' & ER & E2). injection E2 as <- <-. unfold read_restart in ER.
      destruct (run_ops (init_ops m conf) d _) as [F|] eqn:EF; [|discriminate]. apply bind_ok_inv in ER. destruct ER as ([U p] & ESR & ER).
      apply bind_ok_inv in ER. destruct ER as (tt & _ & ER). apply bind_ok_inv in ER. destruct ER as (cs & _ & ER). apply bind_ok_inv in ER. destruct ER as (ds & _ & ER).
      apply bind_ok_inv in ER. destruct ER as (B' & _ & ER). injection ER as <-. cbn [s_U s_p].
      destruct (read_holds _ _ _ _ _ _ _ _ Hset ESR) as (F' & EF' & HV & HP). exists F'. split; [reflexivity|]. split; [|auto].
      rewrite <- E in EF'. rewrite init_ops_other in EF' by lia. rewrite B by lia. exact EF'.
  - destruct (A k st ltac:(lia) Est) as (A1 & _). replace (c_nstart conf + Z.of_nat k)%Z with t in A1 by lia.
    destruct A1 as (F & EF & (HV & HP & _) & _); [now left|]. exists F. auto.
Qed.
Lemma holds_readable m D U p F : mesh_setup m D -> holds_velocity m D U F -> holds_pressure m D p F -> readable m F.
Proof.
  intros Hset HV (l & A & B & _). split; [|eauto]. intros f Hf. destruct (HV f Hf) as (l' & A' & B' & _). eauto.
Qed.

(** * Order of the entries *)
Lemma steps_sorted fuel bg ed step l : (0 < step)%Z -> xdmf_steps fuel bg ed step = Some l ->
  forall i j a b, (i < j)%Z -> nthZ l i = Some a -> nthZ l j = Some b -> (a < b)%Z.
Proof.
  intros Hs. revert bg l. induction fuel as [|f IH]; intros bg l H; cbn [xdmf_steps] in H; destruct (Z.leb_spec bg ed) as [E|E].
  - discriminate.
  - injection H as <-. intros i j a b Hij Hi. apply nthZ_Some_range in Hi. cbn in Hi. lia.
  - destruct (xdmf_steps f (bg + step) ed step) as [t|] eqn:Et; [|discriminate]. injection H as <-. intros i j a b Hij Hi Hj.
    pose proof (nthZ_Some_range _ _ _ Hi) as Ri. pose proof (nthZ_Some_range _ _ _ Hj) as Rj. rewrite nthZ_cons_pos in Hj by lia.
    destruct (Z.eq_dec i 0) as [-> | Hi0].
    + rewrite nthZ_cons_0 in Hi. injection Hi as <-. apply nthZ_In in Hj. apply (proj1 (xdmf_ends _ _ _ _ _ Hs Et)) in Hj. lia.
    + rewrite nthZ_cons_pos in Hi by lia. exact (IH _ _ Et (i - 1)%Z (j - 1)%Z a b ltac:(lia) Hi Hj).
  - injection H as <-. intros i j a b Hij Hi. apply nthZ_Some_range in Hi. cbn in Hi. lia.
Qed.
Lemma doc_of fuel m out bg ed step name n : (0 < step)%Z -> (step | bg)%Z -> (ed - bg < Z.of_nat fuel)%Z -> In (name, n) (xdmf_fields m) ->
  exists docs gs, xdmf_main fuel m out bg ed step = Some docs /\ In ((out ++ "/" ++ name ++ ".xmf")%string, gs) docs /\ lists_steps gs bg ed step /\
    forall g, In g gs -> g = xdmf_grid out name (m_dim m) n (xg_time g) /\ (bg <= xg_time g <= ed)%Z /\ (step | xg_time g)%Z.
Proof.
  intros Hst Hd Hfu Hin. destruct (xdmf_terminates fuel bg ed step Hst Hfu) as (steps & E). pose proof (proj1 (xdmf_ends _ _ _ _ _ Hst E)) as Hs.
  assert (Hs' : forall t, In t steps <-> (bg <= t <= ed)%Z /\ (step | t)%Z).
  { intros t. rewrite Hs. split; intros [A B]; (split; [exact A|]); [replace t with ((t - bg) + bg)%Z by lia; now apply Z.divide_add_r|now apply Z.divide_sub_r]. }
  eexists. exists (map (xdmf_grid out name (m_dim m) n) steps). split; [unfold xdmf_main; exact (write_all_spec _ _ _ _ _ _ _ E _)|]. split.
  - apply in_map_iff. exists (name, n). auto.
  - assert (HM : map xg_time (map (xdmf_grid out name (m_dim m) n) steps) = steps) by (rewrite map_map; cbn; apply map_id). split; [split|].
    + rewrite HM. exact Hs'.
    + intros i j g h Hij Hi Hj. rewrite nthZ_map in Hi, Hj. destruct (nthZ steps i) as [a|] eqn:Ea; [|discriminate]. destruct (nthZ steps j) as [b|] eqn:Eb; [|discriminate].
      injection Hi as <-. injection Hj as <-. cbn [xg_time xdmf_grid]. exact (steps_sorted _ _ _ _ _ Hst E _ _ _ _ Hij Ea Eb).
    + intros g Hg. apply in_map_iff in Hg. destruct Hg as (t & <- & Ht). cbn [xg_time xdmf_grid]. split; [reflexivity|]. now apply Hs'.
Qed.
Lemma field_listed m D f : mesh_setup m D -> (0 <= f < m_dim m \/ f = 3)%Z -> In (fd2str f, m_n m f) (xdmf_fields m).
Proof.
  intros Hs Hf. pose proof (mf_dim _ _ (setup_facts _ _ Hs)) as Hdim. unfold xdmf_fields. apply in_app_iff.
  assert (f = 0 \/ f = 1 \/ f = 3 \/ (f = 2 /\ m_dim m = 3))%Z as [->|[->|[->|[-> ->]]]] by lia; [left|left|left|right]; cbn; auto.
Qed.
Lemma vort_listed m D a : mesh_setup m D -> component m a -> In (vort_group a, xdmf_wn m a) (xdmf_fields m).
Proof.
  intros Hs Ha. pose proof (mf_dim _ _ (setup_facts _ _ Hs)) as Hdim. unfold xdmf_fields, component in *. apply in_app_iff.
  assert (a = 2 \/ ((a = 0 \/ a = 1) /\ m_dim m = 3))%Z as [->|[[-> | ->] ->]] by (destruct (Z.eqb_spec (m_dim m) 2); lia); [left|right|right]; cbn; auto.
Qed.

(** * Values in files *)
Lemma field_data m D st F f : mesh_setup m D -> (0 <= f < m_dim m \/ f = 3)%Z -> holds_velocity m D (s_U st) F -> holds_pressure m D (s_p st) F ->
  exists l, f_sets F ("/" ++ fd2str f)%string = Some l /\ lenZ l = npoints (m_n m f) /\
    forall i j k, interior (m_n m f) (i, j, k) -> exists v, nthZ l (natural (m_n m f) (i, j, k)) = Some v /\ field_value m D f st (i, j, k) v.
Proof.
  intros Hs Hf HV HP. pose proof (setup_facts _ _ Hs) as Fm. pose proof (mf_dim _ _ Fm) as Hdim. unfold field_value. destruct (Z.eqb_spec f 3) as [->|Hf3].
  - destruct HP as (l & A & B & C). exists l. split; [exact A|]. split; [exact B|]. intros i j k Hin.
    apply (field_layout_In D (m_n m 3) 3 (i, j, k) (mf_dec _ _ Fm 3 (or_intror eq_refl))) in Hin. apply In_nthZ in Hin. destruct Hin as (id & _ & Hid). exists (s_p st id). eauto.
  - destruct (HV f ltac:(lia)) as (l & A & B & C). exists l. split; [exact A|]. split; [exact B|]. intros i j k Hin.
    assert (Hp : In (f, (i, j, k)) (packed_layout (m_dim m) D)) by (apply (packed_layout_In (m_dim m) D (m_n m)); [now apply dec_all_facts|]; split; [lia|exact Hin]).
    apply In_nthZ in Hp. destruct Hp as (id & _ & Hid). exists (s_U st id). eauto.
Qed.
Lemma flat_field m D f : mesh_setup m D -> (0 <= f < m_dim m \/ f = 3)%Z -> m_dim m = 2%Z -> m_n m f 2 = 1%Z.
Proof. intros Hs Hf E. exact (proj1 (mf_flat _ _ (setup_facts _ _ Hs) f Hf E)). Qed.
Lemma show_field m D st F G d out t f : mesh_setup m D -> (0 <= f < m_dim m \/ f = 3)%Z -> (0 <= t)%Z ->
  d (grid_path out) = Some G -> holds_coords (fd2str f) (m_n m f) (crd m f) G ->
  d (solution_path out t) = Some F -> holds_velocity m D (s_U st) F -> holds_pressure m D (s_p st) F ->
  displays d (xdmf_grid out (fd2str f) (m_dim m) (m_n m f) t) (m_dim m) (m_n m f) (crd m f) (field_value m D f st).
Proof.
  intros Hs Hf Ht HG HC HF HV HP. destruct (field_data m D st F f Hs Hf HV HP) as (l & A & B & C).
  exact (display_entry d out (fd2str f) (m_dim m) (m_n m f) (crd m f) _ F G l t (mf_dim _ _ (setup_facts _ _ Hs)) (flat_field m D f Hs Hf) Ht HG HC HF A B C).
Qed.
Lemma displays_sizes d g dim n n' x val : (forall e, (0 <= e < 3)%Z -> n e = n' e) -> displays d g dim n x val -> displays d g dim n' x val.
Proof. intros H Hd i j k. rewrite <- !H by lia. apply Hd. Qed.
Lemma grid_ext out name dim n n' t : (dim = 2 \/ dim = 3)%Z -> (forall e, (0 <= e < 3)%Z -> n e = n' e) -> xdmf_grid out name dim n t = xdmf_grid out name dim n' t.
Proof.
  intros Hdim H. unfold xdmf_grid, xdmf_geometry. rewrite !H by lia. destruct Hdim as [-> | ->]; cbn [Z.eqb Pos.eqb].
  - change (zrange 0 2) with [0; 1]%Z. cbn [map]. now rewrite !H by lia.
  - change (zrange 0 3) with [0; 1; 2]%Z. cbn [map]. now rewrite !H by lia.
Qed.
Lemma show_vorticity m D F G d out t a w : mesh_setup m D -> component m a -> (0 <= t)%Z ->
  d (grid_path out) = Some G -> holds_coords (vort_group a) (vort_sizes m a) (vort_crd m a) G ->
  d (solution_path out t) = Some F -> holds_vorticity m a w F ->
  displays d (xdmf_grid out (vort_group a) (m_dim m) (xdmf_wn m a) t) (m_dim m) (vort_sizes m a) (vort_crd m a) w.
Proof.
  intros Hs Ha Ht HG HC HF (l & A & B & C). pose proof (mf_dim _ _ (setup_facts _ _ Hs)) as Hdim.
  rewrite (grid_ext _ _ _ _ (vort_sizes m a) _ Hdim (fun e He => vort_sizes_wn m D a e Hs Ha He)).
  refine (display_entry d out (vort_group a) (m_dim m) (vort_sizes m a) (vort_crd m a) w F G l t Hdim _ Ht HG HC HF _ B _).
  - intros E. unfold component, vort_sizes in *. rewrite E in *. cbn [Z.eqb Pos.eqb] in Ha. subst a. cbn [Z.eqb Pos.eqb]. apply (flat_field m D 3 Hs); auto.
  - replace ("/" ++ vort_group a)%string with (vort_name a); [exact A|]. unfold vort_name, vort_group. now destruct (a =? 0)%Z, (a =? 1)%Z.
  - intros i j k Hin. apply C. intros e He. unfold interior, vort_sizes in *. destruct (pt_cases e He) as [->|[->| ->]]; cbn [pc]; apply Hin.
Qed.
Lemma in_file_value m D st F f q v : mesh_setup m D -> (0 <= f < m_dim m)%Z -> holds_velocity m D (s_U st) F -> field_value m D f st q v -> in_file m F f q v.
Proof.
  intros Hs Hf HV HX. pose proof (mf_dim _ _ (setup_facts _ _ Hs)) as Hdim. unfold field_value in HX. destruct (Z.eqb_spec f 3); [lia|]. destruct HX as (i & Hi & ->).
  destruct (HV f Hf) as (l & A & _ & C). exists l. auto.
Qed.
Lemma only_velocity m D U p F F' : mesh_setup m D -> only_vorticity m F F' -> holds_velocity m D U F -> holds_pressure m D p F ->
  holds_velocity m D U F' /\ holds_pressure m D p F'.
Proof.
  intros Hs (_ & _ & Ho) HV (l & A & B & C). split.
  - intros f Hf. destruct (HV f Hf) as (l' & A' & B' & C'). exists l'. split; [|auto]. rewrite Ho; [exact A'|]. intros k _.
    pose proof (mf_dim _ _ (setup_facts _ _ Hs)) as Hdim. destruct (pt_cases f ltac:(lia)) as [->|[->| ->]]; unfold vort_name, set_name; cbn [fd2str Z.eqb Pos.eqb];
      repeat (match goal with |- context [if ?b then _ else _] => destruct b end); discriminate.
  - exists l. split; [|auto]. rewrite Ho; [exact A|]. intros k _. unfold vort_name. repeat (match goal with |- context [if ?b then _ else _] => destruct b end); discriminate.
Qed.
