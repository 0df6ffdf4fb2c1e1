(** Proofs about the solution files of the immersed-boundary programs and their
    visualisation. *)
From Coq Require Import Ascii String ZifyBool.
From Verif Require Import Prelude ZSum RSum TypesModel GridModel GridSpec GridProof MeshProof
  IndexModel IndexSpec IndexProof BoundaryModel BoundarySpec BoundaryProof OperatorModel OperatorSpec OperatorProof MatModel BnModel NSModel NSSpec NSProof NameModel NameSpec NameProof
  DriverModel DriverSpec DriverProof DriveProof RestartProof RunProof VortModel VortSpec VortProof GridFile VortFile VortProps ConvModel ConvSpec
  XdmfModel XdmfSpec XdmfProof BStateProof
  BodyModel BodySpec BodyProof BodyUse DeltaModel DeltaSpec IbpmModel IbpmSpec IbpmProof IbpmStep IbpmDec IbpmMove IbOutModel IbOutSpec IbOutDrive IbOutSim IbOutLines IbOutProof IbOutDec IbVisSpec.
Local Open Scope R_scope.
Local Notation holds_velocity := DriverSpec.holds_velocity.
Local Notation component := VortProps.component.

(** * The visualisation *)
Lemma shown m D D' types values out bg ed step d2 (V : Z -> nsstate -> Prop) G fuel1 fuel' :
  mesh_setup m D -> mesh_setup m D' -> bc_fits m types -> (0 <= bg)%Z -> (0 < step)%Z -> (step | bg)%Z ->
  (ed - bg < Z.of_nat fuel1)%Z -> (ed - bg < Z.of_nat fuel')%Z ->
  (forall t, (bg <= t <= ed)%Z -> (step | t)%Z -> exists st F, V t st /\ d2 (solution_path out t) = Some F /\ holds_velocity m D (s_U st) F /\ holds_pressure m D (s_p st) F) ->
  d2 (grid_path out) = Some G -> (forall f, (0 <= f < 5)%Z -> holds_coords (fd2str f) (m_n m f) (crd m f) G) ->
  exists d3 docs, vort_main fuel1 m D' types values out bg ed step d2 = Ok (Some d3) /\ xdmf_main fuel' m out bg ed step = Some docs /\
    shows m D out bg ed step docs d3 V.
Proof.
  intros Hset Hset' Hb H0 Hsv Hd Hfu1 Hfu HE EG2 HC.
  assert (HM : forall k, (step | bg + k * step)%Z) by (intros k; apply Z.divide_add_r; [exact Hd|apply Z.divide_factor_r]).
  assert (Hrd : forall k, (0 <= k)%Z -> (bg + k * step <= ed)%Z -> exists F, d2 (solution_path out (bg + k * step)) = Some F /\ readable m F).
  { intros k Hk Hle. destruct (HE (bg + k * step)%Z ltac:(nia) (HM k)) as (st & F & _ & EF & HV & HP). exists F. split; [exact EF|]. exact (holds_readable m D _ _ F Hset HV HP). }
  destruct (vorticity_run m D' types values out fuel1 bg ed step d2 Hset' Hb H0 Hsv ltac:(lia) Hrd) as (d3 & Ev & V1 & V2 & G3 & EG3 & VG1 & VG2).
  assert (HC3 : forall f, (0 <= f < 5)%Z -> holds_coords (fd2str f) (m_n m f) (crd m f) G3).
  { intros f Hf e He. destruct (HC f Hf e He) as (l & A & B). exists l. split; [|exact B]. rewrite (VG2 G _ EG2); [exact A|]. intros a e' Ha He'.
    destruct (z5 f Hf) as [->|[->|[->|[->| ->]]]]; unfold vort_group; cbn [fd2str Z.eqb Pos.eqb]; repeat (match goal with |- context [if ?b then _ else _] => destruct b end);
      cbn [String.append]; discriminate. }
  assert (HE3 : forall t, (bg <= t <= ed)%Z -> (step | t)%Z -> exists st F F3, V t st /\
    d2 (solution_path out t) = Some F /\ holds_velocity m D (s_U st) F /\ d3 (solution_path out t) = Some F3 /\
    holds_velocity m D (s_U st) F3 /\ holds_pressure m D (s_p st) F3 /\
    (forall a, component m a -> holds_vorticity m a (fun _ _ => True) F3) /\
    holds_vorticity m 2 (fun p v => forall u, stored_velocity m F u -> inner_vertex m 2 p -> v = curl m u 2 p) F3).
  { intros t Ht Hdt. destruct (HE t Ht Hdt) as (st & F & Est & EF & HV & HP).
    assert (exists k, (0 <= k)%Z /\ t = (bg + k * step)%Z) as (k & Hk & ->).
    { assert (X : (step | t - bg)%Z) by now apply Z.divide_sub_r. destruct X as [k Hk]. exists k. split; [nia|lia]. }
    destruct (V1 k F Hk ltac:(lia) EF) as (F3 & EF3 & Ho & Hv3). exists st, F, F3. split; [exact Est|]. split; [exact EF|]. split; [exact HV|]. split; [exact EF3|].
    destruct (only_velocity m D _ _ F F3 Hset Ho HV HP) as [X1 X2]. split; [exact X1|]. split; [exact X2|]. split; [exact Hv3|].
    exact (vorticity_z m D' types values out fuel1 bg ed step d2 k F d3 F3 Hset' Hb H0 Hsv ltac:(lia) Hrd Ev Hk ltac:(lia) EF EF3). }
  assert (EX : exists docs, xdmf_main fuel' m out bg ed step = Some docs).
  { destruct (doc_of fuel' m out bg ed step _ _ Hsv Hd ltac:(lia) (field_listed m D 3 Hset (or_intror eq_refl))) as (docs & _ & X & _). eauto. }
  destruct EX as (docs & Ex). exists d3, docs. split; [exact Ev|]. split; [exact Ex|]. split.
  - intros f Hf. destruct (doc_of fuel' m out bg ed step _ _ Hsv Hd ltac:(lia) (field_listed m D f Hset Hf)) as (docs' & gs & E & Hin & Hl & Hg).
    assert (docs' = docs) by congruence. subst docs'. exists gs. split; [exact Hin|]. split; [exact Hl|]. intros g Hgg. destruct (Hg g Hgg) as (Eg & Ht & Hdt).
    destruct (HE3 _ Ht Hdt) as (st & F & F3 & Est & _ & _ & EF3 & HV & HP & _). exists st. split; [exact Est|]. rewrite Eg.
    eapply (show_field m D st F3 G3); eauto; [lia|]. apply HC3. pose proof (mf_dim _ _ (setup_facts _ _ Hset)). lia.
  - intros a Ha. destruct (doc_of fuel' m out bg ed step _ _ Hsv Hd ltac:(lia) (vort_listed m D a Hset Ha)) as (docs' & gs & E & Hin & Hl & Hg).
    assert (docs' = docs) by congruence. subst docs'. exists gs. split; [exact Hin|]. split; [exact Hl|]. intros g Hgg. destruct (Hg g Hgg) as (Eg & Ht & Hdt).
    destruct (HE3 _ Ht Hdt) as (st & F & F3 & Est & _ & HV0 & EF3 & _ & _ & Hw & Hz). exists st. split; [exact Est|]. rewrite Eg.
    eapply (show_vorticity m D F3 G3); eauto; [lia|]. destruct (Z.eq_dec a 2) as [->|Ha2].
    + eapply holds_weaken; [|exact Hz]. cbv beta. intros p v Hp Hv _ Hin2 u Hu. apply Hv; [|exact Hin2]. intros f q Hf Hq Hi. exact (in_file_value m D st F f _ _ Hset Hf HV0 (Hu f q Hf Hq Hi)).
    + eapply holds_weaken; [|exact (Hw a Ha)]. cbv beta. intros p v _ _ E2. contradiction.
Qed.

(** * The files of a loop *)
Section Loop.
Context {St : Type}.
Variables (ite : St -> Z) (wsol : string -> St -> list fsop) (wres : string -> St -> disk -> list fsop) (line : St -> res (list R)) (step : St -> res St).
Hypothesis (Hite : forall s s', step s = Ok s' -> ite s' = (ite s + 1)%Z).
Hypothesis (Hws : forall p s o, In o (wsol p s) -> op_path o = p).
Hypothesis (Hwr : forall p s d o, In o (wres p s d) -> op_path o = p).
Variables (conf : ioconf) (mon : St -> list fsop).
Local Notation wstep := (write_step_with ite wsol wres conf mon).
Local Notation out := (c_out conf).

Section Good.
Variables (good : St -> file -> Prop).
Hypothesis (Hgs : forall p s d, exists F, run_ops (wsol p s) d p = Some F /\ good s F).
Hypothesis (Hgr : forall p s d, (exists d0, d p = run_ops (wsol p s) d0 p) -> exists F, run_ops (wres p s d) d p = Some F /\ good s F).

Lemma saved_file s d ops : mon_elsewhere conf mon -> wstep s d = Ok ops -> (c_nsave conf | ite s)%Z ->
  exists F, run_ops ops d (solution_path out (ite s)) = Some F /\ good s F.
Proof.
  intros Hm H Hs. destruct (write_with_inv _ _ _ _ _ _ _ _ H) as (N1 & N2 & ->). cbv zeta. set (path := solution_path out (ite s)).
  assert (Es : (Z.rem (ite s) (c_nsave conf) =? 0)%Z = true) by (apply Z.eqb_eq, Z.rem_divide; auto). rewrite Es.
  rewrite !run_app. rewrite (run_other (mon s)) by (intros o Ho; exact (Hm s o _ Ho)).
  set (d1 := run_ops [PutText (iterations_path out (c_nstart conf)) (ite s)] d).
  set (lo := [OpenNew (log_path (c_logs conf) (ite s)); Close (log_path (c_logs conf) (ite s))]).
  assert (E : run_ops lo (run_ops (wsol path s) d1) path = run_ops (wsol path s) d1 path) by (apply run_other; intros o [<-|[<-|[]]]; apply log_not_solution).
  destruct (Z.rem (ite s) (c_nrestart conf) =? 0)%Z.
  - apply Hgr. exists d1. exact E.
  - change (run_ops [] ?x) with x. rewrite E. apply Hgs.
Qed.
End Good.

Lemma loop_keeps fuel s d s2 d2 ls q : f_drive fuel ite conf step (write_all ite wsol wres line conf mon) s d = Ok (Some (s2, d2, ls)) ->
  (forall s' d' ops o, (ite s < ite s')%Z -> wstep s' d' = Ok ops -> In o ops -> op_path o <> q) -> d2 q = d q.
Proof.
  revert s d ls. induction fuel as [|f IH]; intros s d ls H Hq; cbn [f_drive] in H; (destruct (_ >=? _)%Z eqn:E; [injection H as <- <- <-; reflexivity|]); [discriminate|].
  apply bind_ok_inv in H. destruct H as (s' & Es & H). apply bind_ok_inv in H. destruct H as ([o l] & Ew & H). apply bind_ok_inv in H. destruct H as (r & Er & H).
  destruct r as [[[s3 d3] ls']|]; [|discriminate]. injection H as <- <- <-. pose proof (Hite _ _ Es) as Hi.
  unfold write_all in Ew. apply bind_ok_inv in Ew. destruct Ew as (o' & Eo & Ew). apply bind_ok_inv in Ew. destruct Ew as (l' & El & Ew). injection Ew as -> ->.
  rewrite (IH _ _ _ Er).
  - apply run_other. intros x Hx. apply (Hq s' d o x); auto. lia.
  - intros s'' d'' ops x Hlt. apply Hq. lia.
Qed.

Lemma loop_entry (good : St -> file -> Prop)
  (Hgs : forall p s d, exists F, run_ops (wsol p s) d p = Some F /\ good s F)
  (Hgr : forall p s d, (exists d0, d p = run_ops (wsol p s) d0 p) -> exists F, run_ops (wres p s d) d p = Some F /\ good s F)
  fuel s d s2 d2 ls t : mon_elsewhere conf mon -> (0 <= ite s)%Z ->
  f_drive fuel ite conf step (write_all ite wsol wres line conf mon) s d = Ok (Some (s2, d2, ls)) ->
  (ite s < t <= c_nstart conf + c_nt conf)%Z -> (c_nsave conf | t)%Z ->
  exists sk F, run_steps step (Z.to_nat (t - ite s)) s = Ok sk /\ d2 (solution_path out t) = Some F /\ good sk F.
Proof.
  intros Hm. revert s d ls. induction fuel as [|f IH]; intros s d ls Hs H Ht Hd; cbn [f_drive] in H; (destruct (_ >=? _)%Z eqn:E; [lia|]); [discriminate|].
  apply bind_ok_inv in H. destruct H as (s' & Es & H). apply bind_ok_inv in H. destruct H as ([o l] & Ew & H). apply bind_ok_inv in H. destruct H as (r & Er & H).
  destruct r as [[[s3 d3] ls']|]; [|discriminate]. injection H as <- <- <-. pose proof (Hite _ _ Es) as Hi.
  unfold write_all in Ew. apply bind_ok_inv in Ew. destruct Ew as (o' & Eo & Ew). apply bind_ok_inv in Ew. destruct Ew as (l' & El & Ew). injection Ew as -> ->.
  destruct (Z.eq_dec t (ite s')) as [->|N].
  - exists s'. destruct (saved_file good Hgs Hgr s' d o Hm Eo Hd) as (F & EF & HF). exists F. split.
    + replace (Z.to_nat (ite s' - ite s)) with 1%nat by lia. rewrite run_front, Es. reflexivity.
    + split; [|exact HF]. rewrite (loop_keeps _ _ _ _ _ _ _ Er); [exact EF|]. intros s'' d'' ops x Hlt Hw Hx C.
      assert (ite s' = ite s''); [|lia]. eapply (write_with_paths ite wsol wres Hws Hwr conf mon s'' d'' ops x); eauto; lia.
  - destruct (IH s' _ _ ltac:(lia) Er ltac:(lia) Hd) as (sk & F & Ek & X). exists sk, F. split; [|exact X].
    replace (Z.to_nat (t - ite s)) with (Datatypes.S (Z.to_nat (t - ite s'))) by lia. rewrite run_front, Es. exact Ek.
Qed.

Lemma wstep_grid s d ops o : off_grid out mon -> (0 <= ite s)%Z -> wstep s d = Ok ops -> In o ops -> op_path o <> grid_path out.
Proof.
  intros Hm Hs H Hin Ho. destruct (write_with_inv _ _ _ _ _ _ _ _ H) as (_ & _ & ->). cbv zeta in Hin.
  apply in_app_iff in Hin. destruct Hin as [[<-|[]]|Hin]; [exact (grid_not_iterations _ _ (eq_sym Ho))|].
  apply in_app_iff in Hin. destruct Hin as [Hin|Hin].
  { destruct (_ =? 0)%Z; [|destruct Hin]. apply in_app_iff in Hin. destruct Hin as [Hin|Hin].
    - rewrite (Hws _ _ _ Hin) in Ho. exact (grid_not_solution _ _ Hs (eq_sym Ho)).
    - destruct Hin as [<-|[<-|[]]]; exact (grid_not_log _ _ _ (eq_sym Ho)). }
  apply in_app_iff in Hin. destruct Hin as [Hin|Hin]; [|exact (Hm _ _ Hin Ho)].
  destruct (_ =? 0)%Z; [|destruct Hin]. rewrite (Hwr _ _ _ _ Hin) in Ho. exact (grid_not_solution _ _ Hs (eq_sym Ho)).
Qed.
End Loop.

Lemma grid_not_forces out n : forces_path out n <> grid_path out.
Proof. unfold forces_path, grid_path. intros E. apply str_app_inj_l in E. cbn [String.append] in E. discriminate. Qed.

(** * A program *)
Section Prog.
Context {Ops St : Type}.
Variable (m : mesh) (D : dec).
Variables (ite : St -> Z) (init : Z -> res (Ops * St)) (wsol : Ops -> string -> St -> list fsop) (wres : Ops -> string -> St -> disk -> list fsop)
  (rres : Ops -> string -> disk -> St -> res St) (line : Ops -> St -> res (list R)) (step : Ops -> St -> res St) (view : Ops -> St -> nsstate).
Hypothesis (Hset : mesh_setup m D).
Hypothesis (Hinit : forall n ops s0, init n = Ok (ops, s0) -> ite s0 = n /\ forall n', exists s0', init n' = Ok (ops, s0')).
Hypothesis (Hite : forall ops s s', step ops s = Ok s' -> ite s' = (ite s + 1)%Z).
Hypothesis (Hrite : forall ops p d s s', rres ops p d s = Ok s' -> ite s' = ite s).
Hypothesis (Hws : forall ops p s o, In o (wsol ops p s) -> op_path o = p).
Hypothesis (Hwr : forall ops p s d o, In o (wres ops p s d) -> op_path o = p).
Hypothesis (Hgs : forall ops p s d, exists F, run_ops (wsol ops p s) d p = Some F /\ holds_solution m D (view ops s) F).
Hypothesis (Hgr : forall ops p s d, (exists d0, d p = run_ops (wsol ops p s) d0 p) -> exists F, run_ops (wres ops p s d) d p = Some F /\ holds_solution m D (view ops s) F).
Hypothesis (Hrd : forall n ops s0 p d s1, init n = Ok (ops, s0) -> rres ops p d s0 = Ok s1 -> exists F, d p = Some F /\ holds_solution m D (view ops s1) F).

Lemma prog_files fuel conf mon d s2 d2 ls :
  g_main m ite init wsol wres rres line step fuel conf mon d = Ok (Some (s2, d2, ls)) ->
  writes_elsewhere (c_out conf) mon -> (0 <= c_nstart conf)%Z ->
  exists ops s0 s1 w, init (c_nstart conf) = Ok (ops, s0) /\
    io_initial_with ite (wsol ops) (rres ops) conf s0 (run_ops (f_init_ops m conf) d) = Ok (s1, w) /\
    (forall t, (c_nstart conf <= t <= c_nstart conf + c_nt conf)%Z -> (c_nsave conf | t)%Z \/ t = c_nstart conf ->
       exists sk F, run_steps (step ops) (Z.to_nat (t - c_nstart conf)) s1 = Ok sk /\ d2 (solution_path (c_out conf) t) = Some F /\ holds_solution m D (view ops sk) F) /\
    (off_grid (c_out conf) mon -> exists G, d2 (grid_path (c_out conf)) = Some G /\
       (forall f, (0 <= f < 5)%Z -> holds_coords (fd2str f) (m_n m f) (crd m f) G) /\
       (forall nm, (forall f e, (0 <= f < 5)%Z -> (0 <= e < 3)%Z -> nm <> ("/" ++ fd2str f ++ "/" ++ axis_name e)%string) -> f_sets G nm = None)).
Proof.
  intros H Hm H0. destruct (g_main_inv _ _ _ _ _ _ _ _ _ _ _ _ _ _ _ H) as (ops & s0 & s1 & w & E1 & E2 & E3). exists ops, s0, s1, w. split; [exact E1|]. split; [exact E2|].
  destruct (Hinit _ _ _ E1) as [Hi0 _]. pose proof (io_inv ite wsol rres Hrite _ _ _ _ _ _ E2) as Hi1.
  set (d1 := run_ops (f_init_ops m conf) d) in *.
  split.
  - intros t Ht Hd. destruct (Z.eq_dec t (c_nstart conf)) as [->|N].
    + replace (Z.to_nat (c_nstart conf - c_nstart conf)) with 0%nat by lia.
      assert (K : d2 (solution_path (c_out conf) (c_nstart conf)) = run_ops w d1 (solution_path (c_out conf) (c_nstart conf))).
      { eapply (loop_keeps ite (wsol ops) (wres ops) (line ops) (step ops) (Hite ops) conf mon); [exact E3|]. intros s' d' o x Hlt Hw Hx C.
        assert (c_nstart conf = ite s'); [|lia]. eapply (write_with_paths ite (wsol ops) (wres ops) (Hws ops) (Hwr ops) conf mon s' d' o x); eauto; lia. }
      unfold io_initial_with in E2. rewrite Hi0 in E2. destruct (c_nstart conf =? 0)%Z.
      * injection E2 as <- <-. destruct (Hgs ops (solution_path (c_out conf) (c_nstart conf)) s0 d1) as (F & EF & HF). exists s0, F. split; [reflexivity|]. split; [congruence|exact HF].
      * apply bind_ok_inv in E2. destruct E2 as (s' & ER & E2). injection E2 as <- <-. destruct (Hrd _ _ _ _ _ _ E1 ER) as (F & EF & HF). exists s', F. split; [reflexivity|]. split; [|exact HF].
        rewrite K. exact EF.
    + destruct Hd as [Hd|Hd]; [|contradiction]. rewrite <- Hi0, <- Hi1.
      eapply (loop_entry ite (wsol ops) (wres ops) (line ops) (step ops) (Hite ops) (Hws ops) (Hwr ops) conf mon (fun s => holds_solution m D (view ops s)) (Hgs ops) (Hgr ops)); eauto; lia.
  - intros Hg. destruct (mesh_file m D (grid_path (c_out conf)) d Hset) as (wo & G & Ew & EG & HC & HN). exists G. split; [|auto].
    rewrite (loop_keeps ite (wsol ops) (wres ops) (line ops) (step ops) (Hite ops) conf mon _ _ _ _ _ _ (grid_path (c_out conf)) E3).
    + rewrite run_other.
      * unfold d1, f_init_ops. rewrite run_app, run_other.
        -- unfold init_ops. rewrite Ew, run_app, run_other; [exact EG|]. intros x [<-|[]]. exact (fun E => grid_not_iterations _ _ (eq_sym E)).
        -- intros x [<-|[]]. apply grid_not_forces.
      * intros x Hx C. unfold io_initial_with in E2. destruct (ite s0 =? 0)%Z.
        -- injection E2 as <- <-. rewrite (Hws _ _ _ _ Hx) in C. refine (grid_not_solution _ _ _ (eq_sym C)); lia.
        -- apply bind_ok_inv in E2. destruct E2 as (s' & _ & E2). injection E2 as <- <-. destruct Hx.
    + intros s' d' o x Hlt Hw Hx. eapply (wstep_grid ite (wsol ops) (wres ops) (Hws ops) (Hwr ops) conf mon); eauto. lia.
Qed.
End Prog.

(** * What a restart reads *)
Lemma read_solution m D path d s s1 : mesh_setup m D -> read_restart m D path d s = Ok s1 -> exists F, d path = Some F /\ holds_solution m D s1 F.
Proof.
  intros Hset ER. unfold read_restart in ER. destruct (d path) as [F0|] eqn:E0; [|discriminate]. apply bind_ok_inv in ER. destruct ER as ([U p] & ESR & ER).
  apply bind_ok_inv in ER. destruct ER as (tt & ET & ER). apply bind_ok_inv in ER. destruct ER as (cs & _ & ER). apply bind_ok_inv in ER. destruct ER as (ds & _ & ER).
  apply bind_ok_inv in ER. destruct ER as (B' & _ & ER). injection ER as <-.
  destruct (read_holds _ _ _ _ _ _ _ _ Hset ESR) as (F & EF & HV & HP). assert (F = F0) by congruence. subst F0. exists F. split; [reflexivity|]. split; [exact HV|]. split; [exact HP|]. cbn [s_t].
  destruct (f_time F); congruence.
Qed.

(** * The three programs *)
Lemma force_saved m D path s nf f d : mfacts m D -> (exists d0, d path = run_ops (write_solution m D path s) d0 path) ->
  exists Fl, run_ops (write_restart m D path s d ++ put_force path nf f) d path = Some Fl /\ holds_solution m D s Fl.
Proof. intros F H. destruct (restart_with_force m D path s nf f d F (or_intror H)) as (Fl & E & HS & _). eauto. Qed.
Lemma nf_forces_nonneg m D bodies : bodies_ok m D bodies -> (0 <= n_forces m bodies)%Z.
Proof. apply nf_nonneg. Qed.

Section Shown.
Variables (m : mesh) (D : dec) (types : Z -> Z -> bctype) (values : Z -> Z -> R) (conf : ioconf) (d2 : disk).
Hypothesis (Hset : mesh_setup m D).
Lemma results_shown (G : file) (V : Z -> nsstate -> Prop) D' fuel1 fuel' : mesh_setup m D' -> bc_fits m types ->
  (0 <= c_nstart conf)%Z -> (0 < c_nsave conf)%Z -> (c_nsave conf | c_nstart conf)%Z -> (c_nt conf < Z.of_nat fuel1)%Z -> (c_nt conf < Z.of_nat fuel')%Z ->
  (forall t, (c_nstart conf <= t <= c_nstart conf + c_nt conf)%Z -> (c_nsave conf | t)%Z \/ t = c_nstart conf ->
     exists st F, V t st /\ d2 (solution_path (c_out conf) t) = Some F /\ holds_solution m D st F) ->
  d2 (grid_path (c_out conf)) = Some G -> (forall f, (0 <= f < 5)%Z -> holds_coords (fd2str f) (m_n m f) (crd m f) G) ->
  exists d3 docs, vort_main fuel1 m D' types values (c_out conf) (c_nstart conf) (c_nstart conf + c_nt conf) (c_nsave conf) d2 = Ok (Some d3) /\
    xdmf_main fuel' m (c_out conf) (c_nstart conf) (c_nstart conf + c_nt conf) (c_nsave conf) = Some docs /\
    shows m D (c_out conf) (c_nstart conf) (c_nstart conf + c_nt conf) (c_nsave conf) docs d3 V.
Proof.
  intros Hs' Hb H0 Hsv Hd F1 F2 HE EG HC. eapply (shown m D D' types values); eauto; [lia|lia|]. intros t Ht Hdt.
  destruct (HE t Ht (or_introl Hdt)) as (st & F & HV & EF & H1 & H2 & _). exists st, F. auto.
Qed.
End Shown.

(** The pressure of the couple made when restarting. *)
Lemma couple_read m D P types values name bodies t0 U0 p0 n IO s0 path d s1 : mesh_setup m D -> bc_fits m types -> bodies_ok m D bodies ->
  ib_init m D P types values name bodies t0 n U0 p0 = Ok (IO, s0) -> ib_read_restart m D IO (n_forces m bodies) path d s0 = Ok s1 ->
  exists F, d path = Some F /\ holds_solution m D (with_p (nest_sub (ib_lay IO) 0 (s_p s1)) s1) F.
Proof.
  intros Hset Hb Hbo EI ER. destruct (c_lay m D P types values name bodies t0 U0 p0 Hset Hb n IO s0 EI) as [EL _].
  unfold ib_read_restart in ER. apply bind_ok_inv in ER. destruct ER as (s' & E & ER). apply bind_ok_inv in ER. destruct ER as (f & _ & ER). injection ER as <-.
  destruct (read_solution m D path d _ s' Hset E) as (F & EF & HV & (l & A1 & A2 & A3) & HT). exists F. split; [exact EF|]. split; [exact HV|]. split; [|exact HT].
  exists l. split; [exact A1|]. split; [exact A2|]. intros i p Hi. rewrite (A3 i p Hi). f_equal. cbn [with_p s_p]. rewrite EL.
  pose proof (setup_facts _ _ Hset) as Fm.
  assert (PL : lenZ (field_layout D 3) = n_pressure m).
  { assert (Hd3 := mf_dec _ _ Fm 3%Z (or_intror eq_refl)). apply (field_layout_len D (m_n m 3)); auto; (pose proof (sizes_pos m D 3 0 Fm (or_intror eq_refl) ltac:(lia));
    pose proof (sizes_pos m D 3 1 Fm (or_intror eq_refl) ltac:(lia)); pose proof (sizes_pos m D 3 2 Fm (or_intror eq_refl) ltac:(lia)); lia). }
  assert (Hr : (0 <= i < n_pressure m)%Z) by (pose proof (nthZ_Some_range _ _ _ Hi) as X; rewrite PL in X; exact X).
  destruct (lay_at m D bodies Hset Hbo 0 i) as (j & Hj & Ej). { apply (lay_In m D bodies Hset Hbo). auto. }
  rewrite (nest_sub_at m D bodies Hset Hbo 0 i j _ Ej). unfold nest_join. rewrite Ej. reflexivity.
Qed.
Lemma dec_read m D nf path d x0 x1 : mesh_setup m D -> d_read_restart m D nf path d x0 = Ok x1 -> exists F, d path = Some F /\ holds_solution m D (x_ns x1) F.
Proof.
  intros Hset ER. unfold d_read_restart in ER. apply bind_ok_inv in ER. destruct ER as (s' & E & ER). apply bind_ok_inv in ER. destruct ER as (f & _ & ER). injection ER as <-.
  exact (read_solution m D path d _ s' Hset E).
Qed.
Lemma mov_read m D path d s0 s1 : mesh_setup m D -> r_read_restart m D path d s0 = Ok s1 -> exists F, d path = Some F /\ holds_solution m D (x_ns (r_x s1)) F.
Proof. intros Hset ER. destruct (v_read_inv m D _ _ _ _ ER) as [E _]. exact (dec_read _ _ _ _ _ _ _ Hset E). Qed.
Lemma mov_rite m D path d s s' : r_read_restart m D path d s = Ok s' -> r_ite s' = r_ite s.
Proof. intros ER. destruct (v_read_inv m D _ _ _ _ ER) as [E _]. exact (e_rite m D _ _ _ _ _ E). Qed.
