From Coq Require Import ZifyBool String.
From Verif Require Import Prelude ZSum RSum TypesModel GridModel GridSpec GridProof MeshProof
  IndexModel IndexSpec IndexProof BoundaryModel BoundarySpec BoundaryProof OperatorModel OperatorSpec OperatorProof BStateProof LapProof AdjProof
  MatModel BnModel NSModel NSSpec NSProof NSTotal NameModel NameProof DriverModel DriverSpec DriverProof DriveProof RestartProof
  BodyModel BodySpec BodyProof BodyUse DeltaModel DeltaSpec IbpmModel IbpmSpec IbpmProof IbpmStep IbpmDec IbpmMove IbOutModel IbOutSpec IbOutDrive IbOutSim IbOutLines.
Local Open Scope R_scope.

(** * The restart file with the forces *)
Lemma set_not_force f : (0 <= f < 3)%Z -> set_name f <> "/force"%string.
Proof. intros Hf. assert (f = 0 \/ f = 1 \/ f = 2)%Z as [->|[->| ->]] by lia; discriminate. Qed.
Lemma force_not_history : ~ is_history "/force".
Proof. intros (i & [E|E]); cbn in E; discriminate. Qed.
Lemma history_not_force g i : g = "/convection"%string \/ g = "/diffusion"%string -> history_name g i <> "/force"%string.
Proof. intros [->| ->] E; cbn in E; discriminate. Qed.

Definition keeps (F F' : file) : Prop := f_time F' = f_time F /\ forall nm, nm <> "/force"%string -> f_sets F' nm = f_sets F nm.
Lemma keeps_solution m D s F F' : (m_dim m <= 3)%Z -> keeps F F' -> holds_solution m D s F -> holds_solution m D s F'.
Proof.
  intros Hd [Ht Ho] (Hv & Hp & Ht'). split; [|split; [|congruence]].
  - intros f Hf. destruct (Hv f Hf) as (l & E & X). exists l. split; [|exact X]. rewrite Ho; auto. apply set_not_force. lia.
  - destruct Hp as (l & E & X). exists l. split; [|exact X]. rewrite Ho; auto. discriminate.
Qed.
Lemma keeps_history m s F F' : keeps F F' -> holds_history m s F -> holds_history m s F'.
Proof.
  intros [Ht Ho] [Hc Hd]. split.
  - intros i v Hi. destruct (Hc i v Hi) as (l & E & X). exists l. split; [|exact X]. rewrite Ho; auto. apply history_not_force; auto.
  - intros i v Hi. destruct (Hd i v Hi) as (l & E & X). exists l. split; [|exact X]. rewrite Ho; auto. apply history_not_force; auto.
Qed.
Lemma put_force_file path nf f d F : d path = Some F ->
  exists F', run_ops (put_force path nf f) d path = Some F' /\ keeps F F' /\ f_sets F' "/force" = Some (force_data nf f).
Proof.
  intros E. unfold put_force. cbn [run_ops fold_left apply_op]. unfold dset, dget. rewrite !String.eqb_refl, E.
  eexists. split; [reflexivity|]. cbn [f_time f_sets]. split; [split; [reflexivity|]|now rewrite String.eqb_refl].
  intros nm Hn. cbn [f_sets]. destruct (String.eqb_spec "/force" nm) as [C|C]; [subst nm; contradiction|reflexivity].
Qed.
Lemma restart_with_force m D path s nf f d : mfacts m D ->
  (d path = None \/ exists d0, d path = run_ops (write_solution m D path s) d0 path) ->
  exists Fl, run_ops (write_restart m D path s d ++ put_force path nf f) d path = Some Fl /\ holds_solution m D s Fl /\ holds_history m s Fl /\
    f_sets Fl "/force" = Some (force_data nf f).
Proof.
  intros HF Hd. rewrite run_app.
  assert (X : exists F1, run_ops (write_restart m D path s d) d path = Some F1 /\ holds_solution m D s F1 /\ holds_history m s F1).
  { assert (G : forall d0 F0, d0 path = Some F0 -> holds_solution m D s F0 ->
      exists F1, run_ops ([OpenApp path] ++ put_history m path "/convection" (s_conv s) ++ put_history m path "/diffusion" (s_diff s) ++ [Close path]) d0 path = Some F1 /\ holds_solution m D s F1 /\ holds_history m s F1).
    { intros d0 F0 E0 HS. destruct (history_ops_file m D path s d0 F0 HF E0) as (F' & E' & HH & Ht & Ho). exists F'. split; [exact E'|]. split; [|exact HH].
      eapply history_keeps_solution; eauto. eapply dim_le3; eauto. }
    unfold write_restart. destruct Hd as [Hd|[d0 Hd]].
    - rewrite Hd, run_app. destruct (write_solution_file m D path s d HF) as (F & E & HS). exact (G _ F E HS).
    - destruct (write_solution_file m D path s d0 HF) as (F & E & HS). rewrite E in Hd. rewrite Hd. exact (G d F Hd HS). }
  destruct X as (F1 & E1 & HS & HH). destruct (put_force_file path nf f _ F1 E1) as (F2 & E2 & K & Ef). exists F2. split; [exact E2|].
  split; [eapply keeps_solution; eauto; eapply dim_le3; eauto|]. split; [eapply keeps_history; eauto|exact Ef].
Qed.
Lemma put_force_paths path nf f o : In o (put_force path nf f) -> op_path o = path.
Proof. intros [<-|[<-|[<-|[]]]]; reflexivity. Qed.
Lemma load_force_ok path nf d f g Fl : (0 <= nf)%Z -> d path = Some Fl -> f_sets Fl "/force" = Some (force_data nf f) ->
  exists f', load_force path nf d g = Ok f' /\ veq nf f f'.
Proof.
  intros Hn E Ef. unfold load_force. rewrite (load_ok d path Fl "/force" (force_data nf f) nf E Ef).
  - cbn [bind]. eexists. split; [reflexivity|]. intros i Hi. unfold force_data. rewrite nthZ_map, nthZ_zrange by lia. reflexivity.
  - unfold force_data. rewrite lenZ_map, zrange_lenZ by lia. lia.
Qed.
Lemma read_inv m D path d s s' : read_restart m D path d s = Ok s' -> s_ite s' = s_ite s /\ lenZ (s_conv s') = lenZ (s_conv s) /\ lenZ (s_diff s') = lenZ (s_diff s) /\
  bc_call m D (OpICs (s_U s')) (s_bc s) = Ok (s_bc s').
Proof.
  unfold read_restart. intros ER. destruct (d _); [|discriminate].
  apply bind_ok_inv in ER. destruct ER as ([U p] & _ & ER). apply bind_ok_inv in ER. destruct ER as (t & _ & ER). apply bind_ok_inv in ER. destruct ER as (cs & Ecs & ER).
  apply bind_ok_inv in ER. destruct ER as (ds & Eds & ER). apply bind_ok_inv in ER. destruct ER as (B & EB & ER). injection ER as <-. cbn [s_ite s_conv s_diff s_U s_bc].
  split; [reflexivity|]. split; [|split; [|exact EB]].
  - unfold load_history in Ecs. apply mapM_lenZ in Ecs. rewrite Ecs. exact (combine_lenZ (s_conv s) 0).
  - unfold load_history in Eds. apply mapM_lenZ in Eds. rewrite Eds. exact (combine_lenZ (s_diff s) 0).
Qed.

(** * Boundary objects *)
Section Fresh.
Variables (m : mesh) (D : dec) (types : Z -> Z -> bctype) (values : Z -> Z -> R).
Hypotheses (F : mfacts m D) (Hb : bc_fits m types).
Lemma fresh_gen s s' dt B1 : fresh m D types values s -> bc_call m D (OpEqs (s_U s) dt) (s_bc s) = Ok B1 -> bc_call m D (OpVals (s_U s')) B1 = Ok (s_bc s') ->
  fresh m D types values s'.
Proof.
  intros (h & o & Hi & _ & HB) B1' B2. apply (bc_call_inv m D types values _ _ _ _ F Hb HB) in B1'. apply (bc_call_inv m D types values _ _ _ _ F Hb B1') in B2.
  assert (Hi1 : has_ics ((h ++ [o]) ++ [OpEqs (s_U s) dt])) by now apply ics_app.
  exists ((h ++ [o]) ++ [OpEqs (s_U s) dt]), (OpVals (s_U s')). split; [now apply ics_app|]. split; [right; auto|exact B2].
Qed.
Lemma fresh_read s s' : fresh m D types values s -> bc_call m D (OpICs (s_U s')) (s_bc s) = Ok (s_bc s') -> fresh m D types values s'.
Proof.
  intros (h & o & Hi & _ & HB) EB. apply (bc_call_inv m D types values _ _ _ _ F Hb HB) in EB. exists (h ++ [o]), (OpICs (s_U s')).
  split; [now apply ics_app|]. split; [right; auto|exact EB].
Qed.
Lemma fresh_same s s' : no_convective m types -> fresh m D types values s -> fresh m D types values s' -> veq (n_velocity m) (s_U s) (s_U s') -> bc_same D (s_bc s) (s_bc s').
Proof.
  intros Hnc H1 H2 HU r Hr. rewrite (fresh_pure m D types values F Hb s r Hnc H1 Hr), (fresh_pure m D types values F Hb s' r Hnc H2 Hr).
  exact (pure_cong m D types values r [] (OpICs (s_U s)) (OpICs (s_U s')) F Hr HU).
Qed.
Lemma fresh_sim n s s' : no_convective m types -> fresh m D types values s -> fresh m D types values s' -> same_n m n s s' -> simn m D types values n s s'.
Proof.
  intros Hnc H1 H2 HS. split; [exact HS|]. split; [destruct HS as (_ & _ & HU & _); now apply fresh_same|].
  destruct H1 as (h & o & Hi & _ & HB). exists (h ++ [o]). auto.
Qed.
End Fresh.

(** * The coupled solver *)
Section Coupled.
Variables (m : mesh) (D : dec) (P : nspar) (types : Z -> Z -> bctype) (values : Z -> Z -> R) (name : string) (bodies : list (body * list (list R))) (t0 : R) (U0 p0 : vec).
Variables (conv : boundary -> vec -> res vec) (vs ps : vec -> vec -> vec).
Hypotheses (Hset : mesh_setup m D) (Hb : bc_fits m types) (Hbo : bodies_ok m D bodies).
Let F : mfacts m D := setup_facts _ _ Hset.
Local Notation nv := (n_velocity m).
Local Notation np := (n_pressure m).
Local Notation nf := (n_forces m bodies).
Local Notation Lay := (nest_layout (nranks D) (pressure_l D) (bp_nLclAllProcs (m_dim m) (map fst bodies))).

Definition c_init (n : Z) := ib_init m D P types values name bodies t0 n U0 p0.
Definition c_line (O : ibops) (s : nsstate) := forces_line (nranks D) (m_dim m) (map fst bodies) (s_t s) (nest_sub (ib_lay O) 1 (s_p s)).
Definition c_step (O : ibops) := ib_advance m D P O conv vs ps.

Lemma ib_main_is fuel conf mon d : ib_main fuel conf m D P types values name bodies t0 U0 p0 mon conv vs ps d =
  g_main m s_ite c_init (ib_write_solution m D) (fun O => ib_write_restart m D O nf) (fun O => ib_read_restart m D O nf) c_line c_step fuel conf mon d.
Proof. reflexivity. Qed.

Lemma c_init_any n O s0 : c_init n = Ok (O, s0) -> s_ite s0 = n /\ forall n', exists s0', c_init n' = Ok (O, s0').
Proof.
  unfold c_init, ib_init. intros H. apply bind_ok_inv in H. destruct H as (bl & -> & H). apply bind_ok_inv in H. cbn [bind]. destruct H as (B & -> & H). cbn [bind].
  apply bind_ok_inv in H. destruct H as (o & -> & H). cbn [bind]. injection H as <- <-. split; [reflexivity|]. eauto.
Qed.
Lemma c_lay n O s0 : c_init n = Ok (O, s0) -> ib_lay O = Lay /\ ib_n O = (np + nf)%Z.
Proof.
  intros H. destruct (ib_init_inv m D P types values name bodies Hset Hb t0 n U0 p0 O s0 H) as (B & _ & EO & _).
  destruct (ib_createOperators_inv m D P name bodies B O EO) as (dd & g & l & E & HH & BN & _ & _ & _ & _ & _ & ->). auto.
Qed.
Lemma c_ite O s s' : c_step O s = Ok s' -> s_ite s' = (s_ite s + 1)%Z.
Proof. intros H. destruct (ib_advance_inv m D P O conv vs ps s s' H) as (? & ? & ? & _ & _ & _ & _ & _ & _ & _ & _ & E & _). exact E. Qed.
Lemma c_time O s s' : c_step O s = Ok s' -> s_t s' = s_t s + p_dt P.
Proof. intros H. destruct (ib_advance_inv m D P O conv vs ps s s' H) as (? & ? & ? & _ & _ & _ & _ & _ & _ & _ & E & _). exact E. Qed.
Lemma c_rite O p d s s' : ib_read_restart m D O nf p d s = Ok s' -> s_ite s' = s_ite s.
Proof.
  unfold ib_read_restart. intros H. apply bind_ok_inv in H. destruct H as (s1 & E & H). apply bind_ok_inv in H. destruct H as (f & _ & H). injection H as <-.
  destruct (read_inv _ _ _ _ _ _ E) as [Hi _]. exact Hi.
Qed.

Definition c_inv (O : ibops) (s : nsstate) : Prop := fresh m D types values s /\ lenZ (s_conv s) = lenZ (p_cexp P) /\ lenZ (s_diff s) = lenZ (p_dexp P).
Lemma c_inv0 n O s0 : c_init n = Ok (O, s0) -> c_inv O s0.
Proof.
  intros H. destruct (ib_init_inv m D P types values name bodies Hset Hb t0 n U0 p0 O s0 H) as (B & HB & _ & ->). split; [|cbn [s_conv s_diff]; rewrite !lenZ_map; auto].
  exists [], (OpICs U0). cbn [s_U s_bc app]. split; [exists U0; now left|]. split; [left; auto|exact HB].
Qed.
Lemma c_invR n O s0 p d s1 : c_init n = Ok (O, s0) -> ib_read_restart m D O nf p d s0 = Ok s1 -> c_inv O s1.
Proof.
  intros H ER. destruct (c_inv0 _ _ _ H) as (Hf & Lc & Ld). unfold ib_read_restart in ER. apply bind_ok_inv in ER. destruct ER as (s' & E & ER).
  apply bind_ok_inv in ER. destruct ER as (f & _ & ER). injection ER as <-. destruct (read_inv _ _ _ _ _ _ E) as (_ & L1 & L2 & EB). cbn [with_p s_conv s_diff s_bc] in *.
  split; [|unfold with_p; cbn [s_conv s_diff]; lia].
  apply (fresh_read m D types values F Hb s0); [exact Hf|exact EB].
Qed.
Lemma c_invS O s s' : c_inv O s -> c_step O s = Ok s' -> c_inv O s'.
Proof.
  intros (Hf & Lc & Ld) H. destruct (ib_advance_inv m D P O conv vs ps s s' H) as (rhs1 & s1 & rhs2 & E1 & _ & B1 & _ & _ & _ & B2 & _ & _ & Ec & Ed).
  split; [exact (fresh_gen m D types values F Hb s s' _ _ Hf B1 B2)|].
  destruct (rhsvel_slots _ _ _ _ _ _ _ _ _ E1) as [S1 S2]. apply slots_update in S1, S2. cbn [begun s_conv s_diff] in S1, S2. rewrite Ec, Ed. destruct S1 as [S1 _], S2 as [S2 _]. lia.
Qed.

(** The file of a step. *)
Definition c_holds (O : ibops) (s : nsstate) (Fl : file) : Prop :=
  holds_solution m D (with_p (nest_sub (ib_lay O) 0 (s_p s)) s) Fl /\ holds_history m (with_p (nest_sub (ib_lay O) 0 (s_p s)) s) Fl /\
  f_sets Fl "/force" = Some (force_data nf (nest_sub (ib_lay O) 1 (s_p s))).
Lemma c_file O s path d : (d path = None \/ exists d0, d path = run_ops (ib_write_solution m D O path s) d0 path) ->
  exists Fl, run_ops (ib_write_restart m D O nf path s d) d path = Some Fl /\ c_holds O s Fl.
Proof. intros H. destruct (restart_with_force m D path _ nf (nest_sub (ib_lay O) 1 (s_p s)) d F H) as (Fl & E & X). exists Fl. auto. Qed.
Lemma c_ws O p s o : In o (ib_write_solution m D O p s) -> op_path o = p.
Proof. apply write_solution_paths. Qed.
Lemma c_wr O p s d o : In o (ib_write_restart m D O nf p s d) -> op_path o = p.
Proof. intros H. apply in_app_iff in H. destruct H as [H|H]; [eapply write_restart_paths; eauto|eapply put_force_paths; eauto]. Qed.

Lemma join_eq q p' f' : veq np (nest_sub Lay 0 q) p' -> veq nf (nest_sub Lay 1 q) f' -> veq (np + nf) q (nest_join Lay p' f').
Proof.
  intros Hp Hf i Hi. unfold nest_join. rewrite <- (lay_len m D bodies Hset Hbo) in Hi. destruct (nthZ_in_range _ _ Hi) as ([b k] & E). rewrite E.
  pose proof (nthZ_In _ _ _ E) as HI. apply (lay_In m D bodies Hset Hbo) in HI. destruct HI as [[-> Hk]|[-> Hk]]; cbn [Z.eqb].
  - rewrite <- (Hp k Hk). symmetry. exact (nest_sub_at m D bodies Hset Hbo 0 k i q E).
  - rewrite <- (Hf k Hk). symmetry. exact (nest_sub_at m D bodies Hset Hbo 1 k i q E).
Qed.
Lemma sub_eq b q q' n : (b = 0 /\ n = np \/ b = 1 /\ n = nf)%Z -> veq (np + nf) q q' -> veq n (nest_sub Lay b q) (nest_sub Lay b q').
Proof.
  intros Hn H k Hk. destruct (lay_at m D bodies Hset Hbo b k) as (i & Hi & E). { apply (lay_In m D bodies Hset Hbo). destruct Hn as [[-> ->]|[-> ->]]; auto. }
  rewrite (nest_sub_at m D bodies Hset Hbo b k i q E), (nest_sub_at m D bodies Hset Hbo b k i q' E). now apply H.
Qed.

Section Restart.
Hypotheses (Hnc : no_convective m types) (Hcv : conv_respects m D conv) (Hvs : vsolve_respects nv vs) (Hps : psolve_respects (np + nf) ps).
Definition c_rel (O : ibops) (s s' : nsstate) : Prop := simn m D types values (np + nf) s s'.
Lemma c_rstep O s s' t : inited c_init O -> c_rel O s s' -> c_step O s = Ok t -> exists t', c_step O s' = Ok t' /\ c_rel O t t'.
Proof.
  intros (n & s0 & HI) HR H. destruct (c_lay _ _ _ HI) as [_ En]. unfold c_rel, c_step in *. rewrite <- En in *.
  exact (ib_sim m D P types values conv vs F Hb Hcv Hvs ps O s s' t Hps HR H).
Qed.
Lemma c_rline O s s' : inited c_init O -> c_rel O s s' -> c_line O s = c_line O s'.
Proof.
  intros (n & s0 & HI) ((St & _ & _ & Sp & _) & _). destruct (c_lay _ _ _ HI) as [El _]. unfold c_line. rewrite El, St. apply (forces_line_cong m D bodies Hbo).
  apply sub_eq; auto.
Qed.
Lemma c_read O s0 sk path d Fl : c_init (s_ite sk) = Ok (O, s0) -> c_inv O sk -> d path = Some Fl -> c_holds O sk Fl ->
  exists s', ib_read_restart m D O nf path d s0 = Ok s' /\ c_rel O sk s'.
Proof.
  intros HI (Hf & Lc & Ld) E (HS & HH & Ef). destruct (c_lay _ _ _ HI) as [El _]. destruct (c_inv0 _ _ _ HI) as (Hf0 & Lc0 & Ld0). destruct (c_init_any _ _ _ HI) as [Hi _].
  destruct Hf0 as (h & o & Hi0 & Ho & HB0). set (s0' := with_p (nest_sub (ib_lay O) 0 (s_p s0)) s0).
  destruct (read_restart_ok m D types values path d Fl _ s0' (h ++ [o]) F Hb E HS HH) as (s1 & ER & SF & HB1); [cbn; lia|cbn; lia|exact Hi|exact HB0|].
  destruct (load_force_ok path nf d _ (nest_sub (ib_lay O) 1 (s_p s0)) Fl (nf_nonneg m D bodies Hbo) E Ef) as (f' & EF & Vf).
  assert (EQ : ib_read_restart m D O nf path d s0 = Ok (with_p (nest_join (ib_lay O) (s_p s1) f') s1)).
  { unfold ib_read_restart. fold s0'. rewrite ER. cbn [bind]. rewrite EF. reflexivity. }
  eexists. split; [exact EQ|]. apply (fresh_sim m D types values F Hb); auto.
  - exact (proj1 (c_invR _ _ _ _ _ _ HI EQ)).
  - destruct SF as (T & I & U & Pp & C & DD). unfold same_n. cbn [with_p s_t s_ite s_U s_p s_conv s_diff] in *. rewrite El in *. repeat split; auto. now apply join_eq.
Qed.
Lemma c_restart confA conf1 conf2 monA mon1 mon2 fuelA fuel1 fuel2 d sA dA lsA s1' d1 ls1 k j :
  c_out confA = c_out conf1 -> c_out conf2 = c_out conf1 -> c_nstart confA = c_nstart conf1 -> (0 <= c_nstart conf1)%Z ->
  writes_elsewhere (c_out conf1) mon1 ->
  c_nt conf1 = Z.of_nat k -> (1 <= k)%nat -> c_nt confA = Z.of_nat (k + j) ->
  c_nstart conf2 = (c_nstart conf1 + Z.of_nat k)%Z -> c_nt conf2 = Z.of_nat j ->
  ib_main fuelA confA m D P types values name bodies t0 U0 p0 monA conv vs ps d = Ok (Some (sA, dA, lsA)) ->
  ib_main fuel1 conf1 m D P types values name bodies t0 U0 p0 mon1 conv vs ps d = Ok (Some (s1', d1, ls1)) ->
  (c_nrestart conf1 | c_nstart conf2)%Z ->
  (c_nsave conf1 | c_nstart conf2)%Z \/ d (solution_path (c_out conf1) (c_nstart conf2)) = None ->
  c_nsave conf2 <> 0%Z -> c_nrestart conf2 <> 0%Z -> (j <= fuel2)%nat ->
  exists sB dB ls2, ib_main fuel2 conf2 m D P types values name bodies t0 U0 p0 mon2 conv vs ps d1 = Ok (Some (sB, dB, ls2)) /\
    same_coupled m nf sA sB /\ lsA = ls1 ++ ls2.
Proof.
  rewrite !ib_main_is. intros. destruct (g_restart m s_ite c_init (ib_write_solution m D) (fun O => ib_write_restart m D O nf) (fun O => ib_read_restart m D O nf) c_line c_step
    c_init_any c_ite c_rite c_ws c_wr c_inv c_rel c_holds c_inv0 c_invR c_invS c_rstep c_rline c_read (fun O s p d _ _ => c_file O s p d)
    confA conf1 conf2 monA mon1 mon2 fuelA fuel1 fuel2 d sA dA lsA s1' d1 ls1 k j) as (O & sB & dB & ls2 & _ & EB & RB & EL); auto.
  exists sB, dB, ls2. split; [exact EB|]. split; [exact (proj1 RB)|exact EL].
Qed.
End Restart.

Lemma c_times O k s s' : run_steps (c_step O) k s = Ok s' -> s_t s' = s_t s + INR k * p_dt P.
Proof.
  revert s'. induction k as [|k IH]; intros s' H; [injection H as <-; simpl; ring|]. cbn [run_steps] in H. apply bind_ok_inv in H. destruct H as (s1 & E & H).
  rewrite (c_time _ _ _ H), (IH _ E), S_INR. ring.
Qed.
Lemma c_lines fuel conf mon d s2 d2 ls : ib_main fuel conf m D P types values name bodies t0 U0 p0 mon conv vs ps d = Ok (Some (s2, d2, ls)) ->
  exists O s0 s1 w, ib_init m D P types values name bodies t0 (c_nstart conf) U0 p0 = Ok (O, s0) /\
    io_initial_with s_ite (ib_write_solution m D O) (ib_read_restart m D O nf) conf s0 (run_ops (f_init_ops m conf) d) = Ok (s1, w) /\
    lenZ ls = Z.max 0 (c_nt conf) /\
    forall k l, nthZ ls k = Some l -> exists sk, run_steps (ib_advance m D P O conv vs ps) (Z.to_nat (k + 1)) s1 = Ok sk /\
      s_ite sk = (c_nstart conf + k + 1)%Z /\ s_t sk = s_t s1 + IZR (k + 1) * p_dt P /\ reported m D bodies (s_t sk) (nest_sub (ib_lay O) 1 (s_p sk)) l.
Proof.
  rewrite ib_main_is. intros H. destruct (g_lines m s_ite c_init _ _ _ c_line c_step c_init_any c_ite c_rite _ _ _ _ _ _ _ H) as (O & s0 & s1 & w & E1 & E2 & _ & E3 & E4).
  exists O, s0, s1, w. split; [exact E1|]. split; [exact E2|]. split; [exact E3|]. intros k l Hk. pose proof (nthZ_Some_range _ _ _ Hk). destruct (E4 k l Hk) as (sk & Ek & El). exists sk.
  split; [exact Ek|]. pose proof (run_ite s_ite (c_step O) (c_ite O) _ _ _ Ek) as Hi. pose proof (c_times _ _ _ _ Ek) as Ht.
  rewrite INR_IZR_INZ, Z2Nat.id in Ht by lia. rewrite Z2Nat.id in Hi by lia.
  pose proof (io_inv s_ite (ib_write_solution m D) (fun O => ib_read_restart m D O nf) c_rite _ _ _ _ _ _ E2) as Hi1. destruct (c_init_any _ _ _ E1) as [Hi0 _].
  split; [lia|]. split; [exact Ht|]. exact (forces_line_reported m D bodies Hbo _ _ _ El).
Qed.
End Coupled.
