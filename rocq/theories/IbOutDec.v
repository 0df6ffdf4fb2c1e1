From Coq Require Import ZifyBool String.
From Verif Require Import Prelude ZSum RSum TypesModel GridModel GridSpec GridProof MeshProof
  IndexModel IndexSpec IndexProof BoundaryModel BoundarySpec BoundaryProof OperatorModel OperatorSpec OperatorProof BStateProof LapProof AdjProof
  MatModel BnModel NSModel NSSpec NSProof NSTotal NameModel NameProof DriverModel DriverSpec DriverProof DriveProof RestartProof
  BodyModel BodySpec BodyProof BodyUse DeltaModel DeltaSpec IbpmModel IbpmSpec IbpmProof IbpmStep IbpmDec IbpmMove IbOutModel IbOutSpec IbOutDrive IbOutSim IbOutLines IbOutProof.
Local Open Scope R_scope.

Section Decoupled.
Variables (m : mesh) (D : dec) (P : nspar) (types : Z -> Z -> bctype) (values : Z -> Z -> R) (name : string) (bodies : list (body * list (list R))) (t0 : R) (U0 p0 : vec).
Variables (conv : boundary -> vec -> res vec) (vs ps : vec -> vec -> vec).
Hypotheses (Hset : mesh_setup m D) (Hb : bc_fits m types) (Hbo : bodies_ok m D bodies).
Let F : mfacts m D := setup_facts _ _ Hset.
Local Notation nv := (n_velocity m).
Local Notation np := (n_pressure m).
Local Notation nf := (n_forces m bodies).

Definition e_init (n : Z) := d_init m D P types values name bodies t0 n U0 p0.
Definition e_line (x : dstate) := forces_line (nranks D) (m_dim m) (map fst bodies) (s_t (x_ns x)) (x_f x).

Lemma e_init_any n OX x0 : e_init n = Ok (OX, x0) -> x_ite x0 = n /\ forall n', exists x0', e_init n' = Ok (OX, x0').
Proof.
  unfold e_init, d_init. intros H. apply bind_ok_inv in H. destruct H as ([O s0] & EI & H). apply bind_ok_inv in H. destruct H as (X & EX & H). injection H as <- <-.
  destruct (ns_init_step _ _ _ _ _ _ n n _ _ _ _ EI) as [Hi _]. split; [exact Hi|]. intros n'. destruct (ns_init_step _ _ _ _ _ _ n n' _ _ _ _ EI) as [_ ->]. cbn [bind s_bc]. rewrite EX. cbn [bind]. eauto.
Qed.
Lemma e_ite O X n rf fs x x' : d_advance m D P O X n conv rf vs ps fs x = Ok x' -> x_ite x' = (x_ite x + 1)%Z.
Proof. intros H. destruct (d_advance_inv _ _ _ _ _ _ _ _ _ _ _ _ _ H) as (? & ? & ? & _ & _ & _ & _ & _ & _ & _ & _ & _ & _ & E & _). exact E. Qed.
Lemma e_time O X n rf fs x x' : d_advance m D P O X n conv rf vs ps fs x = Ok x' -> s_t (x_ns x') = s_t (x_ns x) + p_dt P.
Proof. intros H. destruct (d_advance_inv _ _ _ _ _ _ _ _ _ _ _ _ _ H) as (? & ? & ? & _ & _ & _ & _ & _ & _ & _ & _ & _ & E & _). exact E. Qed.
Lemma e_rite n p d x x' : d_read_restart m D n p d x = Ok x' -> x_ite x' = x_ite x.
Proof.
  unfold d_read_restart. intros H. apply bind_ok_inv in H. destruct H as (s1 & E & H). apply bind_ok_inv in H. destruct H as (f & _ & H). injection H as <-.
  destruct (read_inv _ _ _ _ _ _ E) as [Hi _]. exact Hi.
Qed.
Definition e_inv (x : dstate) : Prop := fresh m D types values (x_ns x) /\ lenZ (s_conv (x_ns x)) = lenZ (p_cexp P) /\ lenZ (s_diff (x_ns x)) = lenZ (p_dexp P).
Lemma e_inv0 n OX x0 : e_init n = Ok (OX, x0) -> e_inv x0.
Proof.
  destruct OX as [O X]. intros H. destruct (d_init_inv m D P types values Hset Hb _ _ _ _ _ _ _ _ _ H) as (B & HB & _ & _ & ->). split; [|cbn [x_ns s_conv s_diff]; rewrite !lenZ_map; auto].
  exists [], (OpICs U0). cbn [x_ns s_U s_bc app]. split; [exists U0; now left|]. split; [left; auto|exact HB].
Qed.
Lemma e_invR n p d x0 x1 : e_inv x0 -> d_read_restart m D n p d x0 = Ok x1 -> e_inv x1.
Proof.
  intros (Hf & Lc & Ld) ER. unfold d_read_restart in ER. apply bind_ok_inv in ER. destruct ER as (s' & E & ER).
  apply bind_ok_inv in ER. destruct ER as (f & _ & ER). injection ER as <-. destruct (read_inv _ _ _ _ _ _ E) as (_ & L1 & L2 & EB). unfold e_inv. cbn [x_ns].
  split; [exact (fresh_read m D types values F Hb (x_ns x0) s' Hf EB)|lia].
Qed.
Lemma e_invS O X n rf fs x x' : e_inv x -> d_advance m D P O X n conv rf vs ps fs x = Ok x' -> e_inv x'.
Proof.
  intros (Hf & Lc & Ld) H. destruct (d_advance_lens m D P _ _ _ _ _ _ _ _ _ _ H) as [L1 L2].
  destruct (d_advance_inv _ _ _ _ _ _ _ _ _ _ _ _ _ H) as (rhs0 & s1 & rhs2 & _ & _ & _ & B1 & _ & _ & _ & _ & B2 & _).
  split; [exact (fresh_gen m D types values F Hb (x_ns x) (x_ns x') _ _ Hf B1 B2)|lia].
Qed.
Definition e_holds (x : dstate) (Fl : file) : Prop :=
  holds_solution m D (x_ns x) Fl /\ holds_history m (x_ns x) Fl /\ f_sets Fl "/force" = Some (force_data nf (x_f x)).
Lemma e_file x path d : (d path = None \/ exists d0, d path = run_ops (d_write_solution m D path x) d0 path) ->
  exists Fl, run_ops (d_write_restart m D nf path x d) d path = Some Fl /\ e_holds x Fl.
Proof. intros H. destruct (restart_with_force m D path _ nf (x_f x) d F H) as (Fl & E & Y). exists Fl. auto. Qed.
Lemma e_ws p x o : In o (d_write_solution m D p x) -> op_path o = p.
Proof. apply write_solution_paths. Qed.
Lemma e_wr n p x d o : In o (d_write_restart m D n p x d) -> op_path o = p.
Proof. intros H. apply in_app_iff in H. destruct H as [H|H]; [eapply write_restart_paths; eauto|eapply put_force_paths; eauto]. Qed.
Lemma e_read x0 xk path d Fl : no_convective m types -> x_ite x0 = x_ite xk -> e_inv x0 -> e_inv xk -> d path = Some Fl -> e_holds xk Fl ->
  exists x', d_read_restart m D nf path d x0 = Ok x' /\ simd m D types values nf xk x'.
Proof.
  intros Hnc Hi I0 (Hf & Lc & Ld) E (HS & HH & Ef). pose proof I0 as (Hf0 & Lc0 & Ld0). destruct Hf0 as (h & o & Hi0 & Ho & HB0).
  destruct (read_restart_ok m D types values path d Fl _ (x_ns x0) (h ++ [o]) F Hb E HS HH) as (s1 & ER & SF & HB1); [lia|lia|exact Hi|exact HB0|].
  destruct (load_force_ok path nf d _ (x_f x0) Fl (nf_nonneg m D bodies Hbo) E Ef) as (f' & EF & Vf).
  assert (EQ : d_read_restart m D nf path d x0 = Ok (mkDS s1 f' (x_df x0))) by (unfold d_read_restart; rewrite ER; cbn [bind]; rewrite EF; reflexivity).
  eexists. split; [exact EQ|]. split; [|exact Vf]. apply (fresh_sim m D types values F Hb); auto. exact (proj1 (e_invR _ _ _ _ _ I0 EQ)).
Qed.
Lemma e_rline t f f' : veq nf f f' -> forces_line (nranks D) (m_dim m) (map fst bodies) t f = forces_line (nranks D) (m_dim m) (map fst bodies) t f'.
Proof. apply (forces_line_cong m D bodies Hbo). Qed.

(** * Fixed bodies *)
Section Fixed.
Variable fs : vec -> vec -> vec.
Definition e_step (OX : nsops * dops) := d_advance m D P (fst OX) (snd OX) nf conv (d_assembleRHSForces m (snd OX)) vs ps fs.
Lemma d_main_is fuel conf mon d : d_main fuel conf m D P types values name bodies t0 U0 p0 mon conv vs ps fs d =
  g_main m x_ite e_init (fun _ => d_write_solution m D) (fun _ => d_write_restart m D nf) (fun _ => d_read_restart m D nf) (fun _ => e_line) e_step fuel conf mon d.
Proof. reflexivity. Qed.

Lemma e_restart confA conf1 conf2 monA mon1 mon2 fuelA fuel1 fuel2 d sA dA lsA s1' d1 ls1 k j :
  no_convective m types -> conv_respects m D conv -> vsolve_respects nv vs -> psolve_respects np ps -> psolve_respects nf fs ->
  c_out confA = c_out conf1 -> c_out conf2 = c_out conf1 -> c_nstart confA = c_nstart conf1 -> (0 <= c_nstart conf1)%Z ->
  writes_elsewhere (c_out conf1) mon1 ->
  c_nt conf1 = Z.of_nat k -> (1 <= k)%nat -> c_nt confA = Z.of_nat (k + j) ->
  c_nstart conf2 = (c_nstart conf1 + Z.of_nat k)%Z -> c_nt conf2 = Z.of_nat j ->
  d_main fuelA confA m D P types values name bodies t0 U0 p0 monA conv vs ps fs d = Ok (Some (sA, dA, lsA)) ->
  d_main fuel1 conf1 m D P types values name bodies t0 U0 p0 mon1 conv vs ps fs d = Ok (Some (s1', d1, ls1)) ->
  (c_nrestart conf1 | c_nstart conf2)%Z ->
  (c_nsave conf1 | c_nstart conf2)%Z \/ d (solution_path (c_out conf1) (c_nstart conf2)) = None ->
  c_nsave conf2 <> 0%Z -> c_nrestart conf2 <> 0%Z -> (j <= fuel2)%nat ->
  exists sB dB ls2, d_main fuel2 conf2 m D P types values name bodies t0 U0 p0 mon2 conv vs ps fs d1 = Ok (Some (sB, dB, ls2)) /\
    same_decoupled m nf sA sB /\ lsA = ls1 ++ ls2.
Proof.
  intros Hnc Hcv Hvs Hps Hfs. rewrite !d_main_is. intros.
  destruct (g_restart m x_ite e_init (fun _ => d_write_solution m D) (fun _ => d_write_restart m D nf) (fun _ => d_read_restart m D nf) (fun _ => e_line) e_step
    e_init_any (fun OX => e_ite _ _ _ _ _) (fun _ => e_rite _) (fun _ => e_ws) (fun _ => e_wr _) (fun _ => e_inv) (fun _ => simd m D types values nf) (fun _ => e_holds)
    e_inv0 (fun n OX x0 p d x1 H => e_invR _ p d x0 x1 (e_inv0 n OX x0 H)) (fun OX => e_invS _ _ _ _ _)) with
    (confA := confA) (conf1 := conf1) (conf2 := conf2) (monA := monA) (mon1 := mon1) (mon2 := mon2) (fuelA := fuelA) (fuel1 := fuel1) (fuel2 := fuel2)
    (d := d) (sA := sA) (dA := dA) (lsA := lsA) (s1' := s1') (d1 := d1) (ls1 := ls1) (k := k) (j := j) as (O & sB & dB & ls2 & _ & EB & RB & EL); auto.
  - intros OX x x' t _ HR HS. unfold e_step in *. eapply (d_sim m D P types values conv vs F Hb Hcv Hvs ps fs _ _ _ _ _ x x' t Hps Hfs); [|exact HR|exact HS].
    intros U U' HU. apply veq_scale. now apply veq_mvec.
  - intros OX x x' _ [((T & _) & _) Vf]. unfold e_line. rewrite T. now apply e_rline.
  - intros OX x0 xk path d0 Fl HI Ik E HF. apply (e_read x0 xk path d0 Fl Hnc); auto; [|exact (e_inv0 _ _ _ HI)]. destruct (e_init_any _ _ _ HI). auto.
  - intros OX xk path d' _ _ Hd. apply e_file. exact Hd.
  - exists sB, dB, ls2. split; [exact EB|]. split; [|exact EL]. destruct RB as [[SF _] Vf]. split; [exact SF|exact Vf].
Qed.
Lemma e_times OX k s s' : run_steps (e_step OX) k s = Ok s' -> s_t (x_ns s') = s_t (x_ns s) + INR k * p_dt P.
Proof.
  revert s'. induction k as [|k IH]; intros s' H; [injection H as <-; simpl; ring|]. cbn [run_steps] in H. apply bind_ok_inv in H. destruct H as (s1 & E & H).
  rewrite (e_time _ _ _ _ _ _ _ H), (IH _ E), S_INR. ring.
Qed.
Lemma e_lines fuel conf mon d s2 d2 ls : d_main fuel conf m D P types values name bodies t0 U0 p0 mon conv vs ps fs d = Ok (Some (s2, d2, ls)) ->
  exists O X x0 x1 w, d_init m D P types values name bodies t0 (c_nstart conf) U0 p0 = Ok (O, X, x0) /\
    io_initial_with x_ite (d_write_solution m D) (d_read_restart m D nf) conf x0 (run_ops (f_init_ops m conf) d) = Ok (x1, w) /\
    lenZ ls = Z.max 0 (c_nt conf) /\
    forall k l, nthZ ls k = Some l -> exists xk, run_steps (d_advance m D P O X nf conv (d_assembleRHSForces m X) vs ps fs) (Z.to_nat (k + 1)) x1 = Ok xk /\
      x_ite xk = (c_nstart conf + k + 1)%Z /\ s_t (x_ns xk) = s_t (x_ns x1) + IZR (k + 1) * p_dt P /\ reported m D bodies (s_t (x_ns xk)) (x_f xk) l.
Proof.
  rewrite d_main_is. intros H. destruct (g_lines m x_ite e_init _ _ _ (fun _ => e_line) e_step e_init_any (fun OX => e_ite _ _ _ _ _) (fun _ => e_rite _) _ _ _ _ _ _ _ H) as ([O X] & s0 & s1 & w & E1 & E2 & _ & E3 & E4).
  exists O, X, s0, s1, w. split; [exact E1|]. split; [exact E2|]. split; [exact E3|]. intros k l Hk. pose proof (nthZ_Some_range _ _ _ Hk). destruct (E4 k l Hk) as (sk & Ek & El). exists sk.
  split; [exact Ek|]. pose proof (run_ite x_ite (e_step (O, X)) (e_ite _ _ _ _ _) _ _ _ Ek) as Hi. pose proof (e_times (O, X) _ _ _ Ek) as Ht.
  rewrite INR_IZR_INZ, Z2Nat.id in Ht by lia. rewrite Z2Nat.id in Hi by lia.
  pose proof (io_inv x_ite (fun _ : unit => d_write_solution m D) (fun _ => d_read_restart m D nf) (fun _ => e_rite _) tt _ _ _ _ _ E2) as Hi1. destruct (e_init_any _ _ _ E1) as [Hi0 _].
  split; [lia|]. split; [exact Ht|]. exact (forces_line_reported m D bodies Hbo _ _ _ El).
Qed.
End Fixed.

(** * Moving bodies *)
Section Moving.
Variables (mo : motion) (pos : R -> list (list (list R))) (vel : R -> Z -> Z -> Z -> R) (fs : mat -> vec -> vec -> vec).
Hypothesis (Hmo : prescribed m D bodies mo pos vel).
Definition v_init (n : Z) := r_init m D P types values name bodies t0 n U0 p0.
Definition v_step (O : nsops) := r_advance m D P O name mo conv vs ps fs.
Definition v_line (s : rstate) := forces_line (nranks D) (m_dim m) (map fst (r_bodies s)) (s_t (x_ns (r_x s))) (x_f (r_x s)).
Lemma r_main_is fuel conf mon d : r_main fuel conf m D P types values name bodies mo t0 U0 p0 mon conv vs ps fs d =
  g_main m r_ite v_init (fun _ path s => d_write_solution m D path (r_x s)) (fun _ path s => d_write_restart m D (n_forces m (r_bodies s)) path (r_x s))
    (fun _ => r_read_restart m D) (fun _ => v_line) v_step fuel conf mon d.
Proof. reflexivity. Qed.

Definition v_inv (s : rstate) : Prop := e_inv (r_x s) /\ shaped bodies s.
Definition v_rel (s s' : rstate) : Prop := simd m D types values nf (r_x s) (r_x s') /\ shaped bodies s /\ shaped bodies s'.
Lemma v_fst s : shaped bodies s -> map fst (r_bodies s) = map fst bodies.
Proof. intros (cs & Hs & ->). apply at_fst. exact (shape_len _ _ Hs). Qed.
Lemma v_nf s : shaped bodies s -> n_forces m (r_bodies s) = nf.
Proof. intros H. unfold n_forces. now rewrite (v_fst s H). Qed.
Lemma v_ite O s s' : v_step O s = Ok s' -> r_ite s' = (r_ite s + 1)%Z /\ s_t (x_ns (r_x s')) = s_t (x_ns (r_x s)) + p_dt P.
Proof.
  unfold v_step, r_advance. intros H. apply bind_ok_inv in H. destruct H as (s1 & E1 & H). apply bind_ok_inv in H. destruct H as (x & Ex & H). injection H as <-.
  assert (Hx : r_x s1 = r_x s).
  { unfold moveBodies in E1. apply bind_ok_inv in E1. destruct E1 as (a & _ & E1). apply bind_ok_inv in E1. destruct E1 as (b & _ & E1). cbv zeta in E1. apply bind_ok_inv in E1. destruct E1 as (c & _ & E1).
    injection E1 as <-. reflexivity. }
  rewrite Hx in Ex. split; [exact (e_ite _ _ _ _ _ _ _ Ex)|exact (e_time _ _ _ _ _ _ _ Ex)].
Qed.
Lemma v_init_any n O s0 : v_init n = Ok (O, s0) -> (exists X x0, e_init n = Ok ((O, X), x0) /\ s0 = mkRS x0 bodies (fun _ => 0) X (di_EBNH X)) /\
  r_ite s0 = n /\ forall n', exists s0', v_init n' = Ok (O, s0').
Proof.
  unfold v_init, r_init. intros H. apply bind_ok_inv in H. destruct H as ([[O' X] x0] & EI & H). cbn [fst snd] in H. injection H as <- <-. destruct (e_init_any _ _ _ EI) as [Hi Hn].
  split; [exists X, x0; auto|]. split; [exact Hi|]. intros n'. destruct (Hn n') as [x0' E']. unfold e_init in E'. rewrite E'. cbn [bind fst snd]. eauto.
Qed.
Lemma v_init_shaped n O s0 : v_init n = Ok (O, s0) -> shaped bodies s0.
Proof. intros H. destruct (v_init_any _ _ _ H) as ((X & x0 & _ & ->) & _). exists (map snd bodies). cbn [r_bodies]. rewrite at_self. split; [apply shape_refl|reflexivity]. Qed.
Lemma v_inv0 n O s0 : v_init n = Ok (O, s0) -> v_inv s0.
Proof. intros H. split; [|eapply v_init_shaped; eauto]. destruct (v_init_any _ _ _ H) as ((X & x0 & E & ->) & _). cbn [r_x]. exact (e_inv0 _ _ _ E). Qed.
Lemma v_read_inv p d s s1 : r_read_restart m D p d s = Ok s1 -> d_read_restart m D (n_forces m (r_bodies s)) p d (r_x s) = Ok (r_x s1) /\ r_bodies s1 = r_bodies s.
Proof. unfold r_read_restart. intros H. apply bind_ok_inv in H. destruct H as (x & E & H). injection H as <-. auto. Qed.
Lemma v_invR p d s0 s1 : v_inv s0 -> r_read_restart m D p d s0 = Ok s1 -> v_inv s1.
Proof.
  intros [I0 (cs & Hs & Eb)] ER. destruct (v_read_inv _ _ _ _ ER) as [E B]. split; [exact (e_invR _ _ _ _ _ I0 E)|]. exists cs. split; [exact Hs|congruence].
Qed.
Lemma v_invS O s s' : v_inv s -> v_step O s = Ok s' -> v_inv s'.
Proof.
  intros [I0 Hs] H. destruct (r_advance_inv m D P name bodies mo pos vel Hmo conv vs ps fs O s s' Hs H) as (Eb & _ & _ & _ & Ex). split; [exact (e_invS _ _ _ _ _ _ _ I0 Ex)|].
  exact (shaped_at m D bodies mo pos vel Hmo s' _ Eb).
Qed.
Lemma ub_veq ub ub' t : holds_velocity m D bodies ub (vel t) -> holds_velocity m D bodies ub' (vel t) -> veq nf ub ub'.
Proof.
  intros H H' i Hi. destruct (forces_range m D bodies Hbo i Hi) as (b & p & c & E). now rewrite (H _ _ _ _ E), (H' _ _ _ _ E).
Qed.
Lemma v_rstep O s s' t : conv_respects m D conv -> vsolve_respects nv vs -> psolve_respects np ps -> (forall A, psolve_respects nf (fs A)) ->
  v_rel s s' -> v_step O s = Ok t -> exists t', v_step O s' = Ok t' /\ v_rel t t'.
Proof.
  intros Hcv Hvs Hps Hfs (HR & Hs & Hs') H. pose proof HR as [((T & _) & SB & h & Hi & Hh) _].
  destruct (r_advance_inv m D P name bodies mo pos vel Hmo conv vs ps fs O s t Hs H) as (Eb & Hub & EX & Esv & Ex). set (ti := s_t (x_ns (r_x s)) + p_dt P) in *.
  assert (Hst : shaped bodies t) by exact (shaped_at m D bodies mo pos vel Hmo t _ Eb).
  destruct Hs' as (cs & Hc & Eb'). pose proof (shape_len _ _ Hc) as L.
  destruct (Hmo ti) as (Hp & Hm & Hv). destruct (Hv (r_UB s')) as (ub' & Eub & Hub'). pose proof (shape_len _ _ Hp) as Lp. 
  assert (EM : moveBodies m D P O name mo ti s' = Ok (mkRS (r_x s') (r_bodies t) ub' (r_ops t) (r_solver t))).
  { unfold moveBodies. rewrite Eb', at_snd, Hm by (auto; now rewrite ?map_length). cbn [bind]. rewrite Eub. cbn [bind]. cbv zeta.
    rewrite set_coords_at by (unfold bodies_at; rewrite combine_length, map_length, L; lia). rewrite at_at by auto.
    rewrite <- (extra_same m D P types values h (s_bc (x_ns (r_x s))) h (s_bc (x_ns (r_x s'))) O name (bodies_at bodies (pos ti)) F Hb Hh (after_same _ _ _ _ _ _ _ Hh SB)).
    rewrite Eb in EX. rewrite EX. cbn [bind]. rewrite Eb, Esv. reflexivity. }
  destruct (d_sim m D P types values conv vs F Hb Hcv Hvs ps (fs (r_solver t)) O (r_ops t) nf (r_assembleRHSForces m (r_ops t) (r_UB t)) (r_assembleRHSForces m (r_ops t) ub') (r_x s) (r_x s') (r_x t) Hps (Hfs _)) as (x' & Ex' & HR').
  { intros U U' HU i Hi'. unfold r_assembleRHSForces. f_equal; [exact (ub_veq _ _ _ Hub Hub' i Hi')|]. f_equal. apply (veq_scale nf); [now apply veq_mvec|exact Hi']. }
  { exact HR. } { rewrite <- (v_nf t Hst). exact Ex. }
  exists (mkRS x' (r_bodies t) ub' (r_ops t) (r_solver t)). split.
  - unfold v_step, r_advance. replace (s_t (x_ns (r_x s')) + p_dt P) with ti by (unfold ti; now rewrite T). rewrite EM. cbn [bind r_x r_ops r_bodies r_UB r_solver].
    rewrite (v_nf t Hst). rewrite Ex'. reflexivity.
  - split; [exact HR'|]. split; [exact Hst|]. exists (pos ti). split; [exact Hp|]. exact Eb.
Qed.

Lemma v_steps O k s s' : v_inv s -> run_steps (v_step O) k s = Ok s' ->
  v_inv s' /\ s_t (x_ns (r_x s')) = s_t (x_ns (r_x s)) + INR k * p_dt P /\ (k <> 0%nat -> r_bodies s' = bodies_at bodies (pos (s_t (x_ns (r_x s'))))).
Proof.
  intros Hi. revert s'. induction k as [|k IH]; intros s' H; [injection H as <-; split; [exact Hi|]; split; [simpl; ring|intros C; now contradiction C]|].
  cbn [run_steps] in H. apply bind_ok_inv in H. destruct H as (s1 & E & H). destruct (IH _ E) as (I1 & T1 & _). split; [exact (v_invS _ _ _ I1 H)|].
  destruct (v_ite _ _ _ H) as [_ T]. split; [rewrite T, T1, S_INR; ring|]. intros _. rewrite T.
  exact (proj1 (r_advance_inv m D P name bodies mo pos vel Hmo conv vs ps fs O s1 s' (proj2 I1) H)).
Qed.
Lemma v_lines fuel conf mon d s2 d2 ls : r_main fuel conf m D P types values name bodies mo t0 U0 p0 mon conv vs ps fs d = Ok (Some (s2, d2, ls)) ->
  exists O s0 s1 w, r_init m D P types values name bodies t0 (c_nstart conf) U0 p0 = Ok (O, s0) /\
    io_initial_with r_ite (fun path s => d_write_solution m D path (r_x s)) (r_read_restart m D) conf s0 (run_ops (f_init_ops m conf) d) = Ok (s1, w) /\
    run_steps (r_advance m D P O name mo conv vs ps fs) (Z.to_nat (c_nt conf)) s1 = Ok s2 /\
    ((0 < c_nt conf)%Z -> r_bodies s2 = bodies_at bodies (pos (s_t (x_ns (r_x s2))))) /\
    lenZ ls = Z.max 0 (c_nt conf) /\
    forall k l, nthZ ls k = Some l -> exists sk, run_steps (r_advance m D P O name mo conv vs ps fs) (Z.to_nat (k + 1)) s1 = Ok sk /\
      r_ite sk = (c_nstart conf + k + 1)%Z /\ s_t (x_ns (r_x sk)) = s_t (x_ns (r_x s1)) + IZR (k + 1) * p_dt P /\
      r_bodies sk = bodies_at bodies (pos (s_t (x_ns (r_x sk)))) /\ reported m D bodies (s_t (x_ns (r_x sk))) (x_f (r_x sk)) l.
Proof.
  rewrite r_main_is. intros H.
  assert (Hany : forall n O s0, v_init n = Ok (O, s0) -> r_ite s0 = n /\ (forall n', exists s0', v_init n' = Ok (O, s0'))) by (intros n O s0 HI; exact (proj2 (v_init_any _ _ _ HI))).
  assert (Hite : forall O s s', v_step O s = Ok s' -> r_ite s' = (r_ite s + 1)%Z) by (intros O s s' HH; exact (proj1 (v_ite O s s' HH))).
  assert (Hrite : forall (O : nsops) p d0 s s', r_read_restart m D p d0 s = Ok s' -> r_ite s' = r_ite s) by (intros O p d0 s s' HH; exact (e_rite _ _ _ _ _ (proj1 (v_read_inv _ _ _ _ HH)))).
  destruct (g_lines m r_ite v_init _ _ (fun _ => r_read_restart m D) (fun _ => v_line) v_step Hany Hite Hrite _ _ _ _ _ _ _ H) as (O & s0 & s1 & w & E1 & E2 & ER & E3 & E4).
  assert (I1 : v_inv s1).
  { pose proof (v_inv0 _ _ _ E1) as I0. unfold io_initial_with in E2. destruct (_ =? 0)%Z; [injection E2 as <- <-; exact I0|].
    apply bind_ok_inv in E2. destruct E2 as (s' & E' & E2). injection E2 as <- <-. exact (v_invR _ _ _ _ I0 E'). }
  exists O, s0, s1, w. split; [exact E1|]. split; [exact E2|]. split; [exact ER|]. split.
  { intros Hn. apply (v_steps O _ _ _ I1 ER). lia. }
  split; [exact E3|]. intros k l Hk. pose proof (nthZ_Some_range _ _ _ Hk). destruct (E4 k l Hk) as (sk & Ek & El). exists sk. split; [exact Ek|].
  destruct (v_steps O _ _ _ I1 Ek) as (Ik & Ht & Hb'). pose proof (run_ite r_ite (v_step O) (Hite O) _ _ _ Ek) as Hi.
  rewrite INR_IZR_INZ, Z2Nat.id in Ht by lia. rewrite Z2Nat.id in Hi by lia.
  pose proof (io_inv r_ite (fun (_ : unit) path s => d_write_solution m D path (r_x s)) (fun _ => r_read_restart m D) (fun _ => Hrite O) tt _ _ _ _ _ E2) as Hi1. destruct (Hany _ _ _ E1) as [Hi0 _].
  split; [lia|]. split; [exact Ht|]. split; [apply Hb'; lia|]. unfold v_line in El. rewrite (v_fst _ (proj2 Ik)) in El. exact (forces_line_reported m D bodies Hbo _ _ _ El).
Qed.
Lemma v_restart confA conf1 conf2 monA mon1 mon2 fuelA fuel1 fuel2 d sA dA lsA s1' d1 ls1 k j :
  no_convective m types -> conv_respects m D conv -> vsolve_respects nv vs -> psolve_respects np ps -> (forall A, psolve_respects nf (fs A)) ->
  c_out confA = c_out conf1 -> c_out conf2 = c_out conf1 -> c_nstart confA = c_nstart conf1 -> (0 <= c_nstart conf1)%Z ->
  writes_elsewhere (c_out conf1) mon1 ->
  c_nt conf1 = Z.of_nat k -> (1 <= k)%nat -> c_nt confA = Z.of_nat (k + j) ->
  c_nstart conf2 = (c_nstart conf1 + Z.of_nat k)%Z -> c_nt conf2 = Z.of_nat j -> (1 <= j)%nat ->
  r_main fuelA confA m D P types values name bodies mo t0 U0 p0 monA conv vs ps fs d = Ok (Some (sA, dA, lsA)) ->
  r_main fuel1 conf1 m D P types values name bodies mo t0 U0 p0 mon1 conv vs ps fs d = Ok (Some (s1', d1, ls1)) ->
  (c_nrestart conf1 | c_nstart conf2)%Z ->
  (c_nsave conf1 | c_nstart conf2)%Z \/ d (solution_path (c_out conf1) (c_nstart conf2)) = None ->
  c_nsave conf2 <> 0%Z -> c_nrestart conf2 <> 0%Z -> (j <= fuel2)%nat ->
  exists sB dB ls2, r_main fuel2 conf2 m D P types values name bodies mo t0 U0 p0 mon2 conv vs ps fs d1 = Ok (Some (sB, dB, ls2)) /\
    same_decoupled m nf (r_x sA) (r_x sB) /\ r_bodies sA = r_bodies sB /\ lsA = ls1 ++ ls2.
Proof.
  intros Hnc Hcv Hvs Hps Hfs. rewrite !r_main_is. intros HoA Ho2 HnA H0 Hm Hk Hk1 HkA Hn2 Hj Hj1 HA H1 Hr Hs N1 N2 Hfu.
  assert (Hany : forall n O s0, v_init n = Ok (O, s0) -> r_ite s0 = n /\ (forall n', exists s0', v_init n' = Ok (O, s0'))) by (intros n O s0 HI; exact (proj2 (v_init_any _ _ _ HI))).
  assert (Hite : forall O s s', v_step O s = Ok s' -> r_ite s' = (r_ite s + 1)%Z) by (intros O s s' HH; exact (proj1 (v_ite O s s' HH))).
  assert (Hrite : forall (O : nsops) p d0 s s', r_read_restart m D p d0 s = Ok s' -> r_ite s' = r_ite s) by (intros O p d0 s s' HH; exact (e_rite _ _ _ _ _ (proj1 (v_read_inv _ _ _ _ HH)))).
  destruct (g_restart m r_ite v_init (fun _ path s => d_write_solution m D path (r_x s)) (fun _ path s => d_write_restart m D (n_forces m (r_bodies s)) path (r_x s))
    (fun _ => r_read_restart m D) (fun _ => v_line) v_step Hany Hite Hrite (fun _ p s => e_ws p (r_x s)) (fun _ p s => e_wr _ p (r_x s))
    (fun _ => v_inv) (fun _ => v_rel) (fun _ s Fl => e_holds (r_x s) Fl /\ shaped bodies s) v_inv0 (fun n O s0 p d x1 HI => v_invR p d s0 x1 (v_inv0 n O s0 HI)) v_invS) with
    (confA := confA) (conf1 := conf1) (conf2 := conf2) (monA := monA) (mon1 := mon1) (mon2 := mon2) (fuelA := fuelA) (fuel1 := fuel1) (fuel2 := fuel2)
    (d := d) (sA := sA) (dA := dA) (lsA := lsA) (s1' := s1') (d1 := d1) (ls1 := ls1) (k := k) (j := j) as (O & sB & dB & ls2 & _ & EB & RB & EL); auto.
  - intros O s s' t _ HR HS. exact (v_rstep O s s' t Hcv Hvs Hps Hfs HR HS).
  - intros O s s' _ (HR & S1 & S2). pose proof HR as [((T & _) & _) Vf]. unfold v_line. rewrite T, (v_fst _ S1), (v_fst _ S2). now apply e_rline.
  - intros O s0 sk path d0 Fl HI [Ik Sk] E [HF _]. destruct (v_init_any _ _ _ HI) as (_ & Hi & _). destruct (v_inv0 _ _ _ HI) as [I0 S0].
    destruct (e_read (r_x s0) (r_x sk) path d0 Fl Hnc) as (x' & Ex & HR); auto.
    exists (mkRS x' (r_bodies s0) (r_UB s0) (r_ops s0) (r_solver s0)). unfold r_read_restart. rewrite (v_nf _ S0), Ex. split; [reflexivity|]. split; [exact HR|]. split; [exact Sk|exact S0].
  - intros O sk path d' _ [_ Sk] Hd. rewrite (v_nf _ Sk). destruct (e_file (r_x sk) path d' Hd) as (Fl & EF & HF). exists Fl. auto.
  - exists sB, dB, ls2. split; [exact EB|]. destruct RB as (HR & _). pose proof HR as [((T & T') & _) Vf]. split; [split; [exact (conj T T')|exact Vf]|].
    split; [|exact EL]. rewrite <- r_main_is in HA, EB. destruct (v_lines _ _ _ _ _ _ _ HA) as (? & ? & ? & ? & _ & _ & _ & BA & _). destruct (v_lines _ _ _ _ _ _ _ EB) as (? & ? & ? & ? & _ & _ & _ & BB & _).
    rewrite BA, BB, T by lia. reflexivity.
Qed.
End Moving.
End Decoupled.
