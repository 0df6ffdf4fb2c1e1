(** Whole runs: what is left after them. *)
From Verif Require Import Prelude LifeModel LifeSpec LifeHeap LifeProof LifeNs LifeNs2 LifeIb LifeRun.
From Coq Require Import ZifyBool.
Local Open Scope Z_scope.

Lemma run_app h l1 l2 : run h (l1 ++ l2) = do h' <- run h l1; run h' l2.
Proof. unfold run. revert h. induction l1 as [|o l1 IH]; intros h; cbn; [reflexivity|]. destruct (exec h o); cbn; auto. Qed.

Lemma run_tr P l Q h : tr P l Q -> state h P -> exists h', run h l = Ok h' /\ state h' Q.
Proof. intros T S. exact (run_good l h P Q S T). Qed.

Lemma state_clean h P : state h P -> no_garbage h.
Proof. intros [I _] i o. exact (inv_reachable h I i o). Qed.

Lemma after_dead a sh d x : live (after a sh d x) = false.
Proof. unfold after. destruct (table a sh d x); reflexivity. Qed.

Lemma state_empty h P : state h P -> (forall x, live (P x) = false) -> nothing_alive h.
Proof. intros [I R] H. apply (inv_nothing h I). intros s. exact (rel_dead h s (P s) (R s) (H s)). Qed.

(** The state the run is in after its start, after some steps and at its end. *)
Lemma run_start a sh : wf_shape sh -> exists h, run empty_heap (start a sh) = Ok h /\ state h (table a sh none).
Proof. intros W. exact (run_tr _ _ _ _ (start_tr sh W a) empty_state). Qed.

Lemma run_steps_state a sh es h d : wf_shape sh -> state h (table a sh d) ->
  exists h' d', run h (flat_map (step a sh) es) = Ok h' /\ state h' (table a sh d').
Proof. intros W S. destruct (steps_tr sh W a es d) as [d' T]. destruct (run_tr _ _ _ _ T S) as (h' & E & S'). eauto. Qed.

Lemma program_state a sh es : wf_shape sh -> exists h d, run empty_heap (program a sh es) = Ok h /\ state h (after a sh d).
Proof.
  intros W. destruct (run_start a sh W) as (h0 & E0 & S0). destruct (run_steps_state a sh es h0 none W S0) as (h1 & d & E1 & S1).
  destruct (run_tr _ _ _ _ (destroy_all_tr sh W a d) S1) as (h2 & E2 & S2). exists h2, d. split; [|exact S2].
  unfold program. rewrite run_app, E0. cbn [bind]. rewrite run_app, E1. exact E2.
Qed.

Lemma everything_freed a sh es : wf_shape sh -> exists h, run empty_heap (program a sh es) = Ok h /\ nothing_alive h.
Proof. intros W. destruct (program_state a sh es W) as (h & d & E & S). exists h. split; [exact E|]. exact (state_empty h _ S (after_dead a sh d)). Qed.

Lemma destroyed_twice a sh es : wf_shape sh -> a <> Coupled ->
  exists h, run empty_heap (program a sh es ++ destroy a sh) = Ok h /\ nothing_alive h.
Proof.
  intros W Ha. destruct (program_state a sh es W) as (h & d & E & S).
  destruct (run_tr _ _ _ _ (again_tr sh W a d Ha) S) as (h' & E' & S'). exists h'. rewrite run_app, E. split; [exact E'|].
  exact (state_empty h' _ S' (after_dead a sh d)).
Qed.

Lemma drop_same x l st : (forall s, In s l -> slot_eqb s x = true -> st = Nu) -> acts x (map ODrop l) st = Some st.
Proof.
  induction l as [|s l IH]; intros H; cbn [map]; [reflexivity|]. apply (acts_cons x _ _ st st).
  - cbn. destruct (slot_eqb s x) eqn:E; [|reflexivity]. now rewrite (H s (or_introl eq_refl) E).
  - apply IH. intros t Ht. apply H. now right.
Qed.

(** The coupled solver: the vector is NULL the second time. *)
Lemma coupled_twice sh es : wf_shape sh -> run empty_heap (program Coupled sh es ++ destroy Coupled sh) = Err 85.
Proof.
  intros W. destruct (program_state Coupled sh es W) as (h & d & E & S). rewrite run_app, E. cbn [bind destroy]. unfold co_destroy.
  change ([ODrop (SisDE 0); ODrop (SisDE 1); OUse (V SP KVec); ODrop SP; ODrop SforcesV] ++ ns_destroy sh)
    with ([ODrop (SisDE 0); ODrop (SisDE 1)] ++ OUse (V SP KVec) :: [ODrop SP; ODrop SforcesV] ++ ns_destroy sh).
  rewrite app_assoc, run_app.
  assert (T : tr (after Coupled sh d) (bodies_reset sh ++ [ODrop (SisDE 0); ODrop (SisDE 1)]) (after Coupled sh d)).
  { intros x. unfold bodies_reset, loop. apply (acts_app _ _ _ (after Coupled sh d x) (after Coupled sh d x)); [apply (acts_app _ _ _ (after Coupled sh d x) (after Coupled sh d x))|].
    - apply (drop_same x [SbPack]). intros s [<-|[]] Es. apply slot_eqb_eq in Es. now subst x.
    - apply acts_flat_same. intros i Hi. apply zrange_In in Hi. apply (drop_same x [SbDa i]). intros s [<-|[]] Es. apply slot_eqb_eq in Es. subst x.
      unfold after, table. cbn [has_bodies andb]. unfold within. replace (0 <=? i) with true by lia. replace (i <? s_bodies sh) with true by lia. reflexivity.
    - apply (drop_same x [SisDE 0; SisDE 1]). intros s [<-|[<-|[]]] Es; apply slot_eqb_eq in Es; now subst x. }
  destruct (run_tr _ _ _ _ T S) as (h' & E' & [_ R']). rewrite E'. cbn [bind].
  specialize (R' SP). cbn in R'. unfold run. cbn [foldM exec]. unfold resolve. cbn [p_slot V]. rewrite R'. reflexivity.
Qed.

(** Before init: the first handle destroyed was never set. *)
Lemma destroyed_before_init a sh : s_conv sh = 0 -> s_diff sh = 0 -> s_probes sh = [] -> s_bodies sh = 0 ->
  run empty_heap (constructor a ++ destroy a sh) = UB.
Proof. destruct sh; cbn. intros -> -> -> ->. destruct a; reflexivity. Qed.

(** What the members hold during the run. *)
Lemma rel_holds h x st k : rel h x st -> (holds h x k <-> match st with Li k' _ => k' = k | _ => False end).
Proof.
  unfold holds. destruct st as [| |k' cs]; cbn.
  - intros ->. split; [intros (i & o & E & _); discriminate|tauto].
  - intros ->. split; [intros (i & o & E & _); discriminate|tauto].
  - intros (i & o & E1 & E2 & E3 & _). split.
    + intros (i' & o' & F1 & F2 & F3). rewrite E1 in F1. injection F1 as <-. rewrite E2 in F2. injection F2 as <-. congruence.
    + intros <-. eauto.
Qed.

Lemma table_same a sh d d' x : ~ probe_sum x -> table a sh d x = table a sh d' x.
Proof. destruct x; cbn; tauto. Qed.

Lemma table_ksp a sh d x cs : table a sh d x = Li KKsp cs -> cs = [KMat; KMat].
Proof.
  destruct x; cbn; unfold on, ksp_of; repeat match goal with |- context [if ?b then _ else _] => destruct b end;
    try discriminate; try congruence; destruct (nthZ _ _) as [[? ?|?]|]; repeat match goal with |- context [if ?b then _ else _] => destruct b end; discriminate.
Qed.

Lemma members_steady a sh es : wf_shape sh ->
  exists h0 h1, run empty_heap (start a sh) = Ok h0 /\ run h0 (flat_map (step a sh) es) = Ok h1 /\ no_garbage h1 /\
    (forall s k, holds h0 s k -> holds h1 s k) /\
    (forall s k, ~ probe_sum s -> holds h1 s k -> holds h0 s k) /\
    (forall s, holds h1 s KKsp -> refers h1 s 2).
Proof.
  intros W. destruct (run_start a sh W) as (h0 & E0 & S0). destruct (run_steps_state a sh es h0 none W S0) as (h1 & d & E1 & S1).
  exists h0, h1. split; [exact E0|]. split; [exact E1|]. split; [exact (state_clean h1 _ S1)|]. destruct S0 as [_ R0], S1 as [_ R1].
  split; [|split].
  - intros s k H. apply (rel_holds h0 s _ k (R0 s)) in H. apply (rel_holds h1 s _ k (R1 s)).
    assert (D : probe_sum s \/ ~ probe_sum s) by (destruct s; cbn; tauto). destruct D as [D|D].
    + destruct s; try contradiction D. cbn in H. unfold none in H. destruct (nthZ (s_probes sh) i) as [[? ?|?]|]; contradiction H.
    + now rewrite (table_same a sh d none s D).
  - intros s k D H. apply (rel_holds h1 s _ k (R1 s)) in H. apply (rel_holds h0 s _ k (R0 s)). now rewrite (table_same a sh none d s D).
  - intros s H. apply (rel_holds h1 s _ KKsp (R1 s)) in H. specialize (R1 s). destruct (table a sh d s) as [| |k cs] eqn:ET; try contradiction H. subst k.
    apply table_ksp in ET. subst cs. destruct R1 as (i & o & F1 & F2 & _ & F3). exists i, o. split; [exact F1|]. split; [exact F2|].
    change (tracked KKsp) with true in F3. cbn iota in F3. inversion F3 as [|? ? ? ? _ F4]; subst. inversion F4 as [|? ? ? ? _ F5]; subst. inversion F5; subst. reflexivity.
Qed.

(** ** Stopping during init *)
Lemma eqb_false s t : s <> t -> slot_eqb s t = false.
Proof. intros H. destruct (slot_eqb s t) eqn:E; [|reflexivity]. apply slot_eqb_eq in E. contradiction. Qed.

Lemma unnamed o x st st' : ~ names o x -> act x o st = Some st' -> st' = st.
Proof.
  destruct o; cbn; intros H.
  - rewrite (eqb_false s x H). congruence.
  - rewrite (eqb_false s x) by tauto. destruct (_ && _); congruence.
  - rewrite (eqb_false s x H). congruence.
  - rewrite (eqb_false s x) by tauto. destruct (_ && _); congruence.
  - rewrite (eqb_false s x), (eqb_false t x) by tauto. destruct (_ && _); congruence.
  - rewrite (eqb_false s x H). destruct (check_at _ _ _); congruence.
  - rewrite (eqb_false s x H). congruence.
  - unfold ask. destruct (check_at _ _ _); congruence.
  - rewrite (eqb_false s x H). congruence.
  - rewrite (eqb_false s x), (eqb_false t x) by tauto. destruct (_ && _); congruence.
Qed.
Lemma unnamed_all x l : forall st st', Forall (fun o => ~ names o x) l -> acts x l st = Some st' -> st' = st.
Proof.
  induction l as [|o l IH]; cbn; intros st st' H E; [congruence|]. inversion H as [|? ? H1 H2]; subst.
  destruct (act x o st) as [s1|] eqn:E1; [|discriminate]. apply unnamed in E1; [|exact H1]. subst s1. exact (IH st st' H2 E).
Qed.

Lemma acts_prefix x l m st st2 : acts x (l ++ m) st = Some st2 -> acts x l st = Some (match acts x l st with Some s => s | None => Un end).
Proof. intros H. apply acts_app_inv in H as (s & E & _). now rewrite E. Qed.

Lemma stopped_in_init sh part rest : wf_shape sh -> init NavierStokes sh = part ++ rest -> Forall (fun o => ~ names o SdP) part ->
  run empty_heap (constructor NavierStokes ++ part ++ destroy NavierStokes sh) = UB.
Proof.
  intros W E N.
  assert (T : tr (fun _ => Un) (constructor NavierStokes ++ part) (fun x => match acts x (constructor NavierStokes ++ part) Un with Some s => s | None => Un end)).
  { intros x. pose proof (start_tr sh W NavierStokes x) as T. unfold start in T. rewrite E in T.
    replace (constructor NavierStokes ++ (part ++ rest) ++ io_initial NavierStokes sh)
      with ((constructor NavierStokes ++ part) ++ rest ++ io_initial NavierStokes sh) in T by now rewrite <- !app_assoc.
    exact (acts_prefix _ _ _ _ _ T). }
  destruct (run_tr _ _ _ _ T empty_state) as (h & Eh & [_ R]). rewrite app_assoc, run_app, Eh. cbn [bind destroy]. unfold ns_destroy, run.
  specialize (R SdP). specialize (T SdP). apply unnamed_all in T.
  - rewrite T in R. cbn in R. cbn [Datatypes.app foldM exec]. now rewrite R.
  - apply Forall_app. split; [|exact N]. cbn. repeat constructor; cbn; discriminate.
Qed.

(** ** The approximate inverse with a mass matrix *)

Section Bn.
Variable sh : shape.
Variable n : Z.

Definition bn_own (x : slot) : status := match x with LOp | LM | LMHead => Li KMat [] | _ => Un end.
Definition bn_out (x : slot) : status := match x with LBn => Nu | _ => bn_own x end.
Definition bn_any (b : bool) (x : slot) : status := if b then bn_out x else bn_own x.

Lemma bnhead_call_tr b : tr (bn_any b) (create_bnhead sh LOp n LBn ++ [ODrop LBn]) bn_out.
Proof.
  intros x. destruct x; destruct b; cbn [bn_any bn_own bn_out]; piece.
Qed.
Lemma bn_call_tr b : tr (bn_any b) (create_bn sh LOp LM LMHead n LBn ++ [ODrop LBn]) bn_out.
Proof.
  unfold create_bn. intros x. destruct x; destruct b; cbn [bn_any bn_own bn_out]; piece.
Qed.

Lemma repeat_tr call k : (forall b, tr (bn_any b) call bn_out) -> exists b, tr bn_own (concat (repeat call k)) (bn_any b).
Proof.
  intros H. assert (G : forall b, exists b', tr (bn_any b) (concat (repeat call k)) (bn_any b')).
  { induction k as [|k IH]; intros b; [exists b; apply tr_nil|]. destruct (IH true) as [b' Hb]. exists b'. cbn [repeat concat].
    exact (tr_app _ _ _ _ _ (H b) Hb). }
  exact (G false).
Qed.

Lemma user_frees call k : (forall b, tr (bn_any b) (call ++ [ODrop LBn]) bn_out) ->
  exists h, run empty_heap (library_user [LOp; LM; LMHead] call LBn k) = Ok h /\ nothing_alive h.
Proof.
  intros H. destruct (repeat_tr _ k H) as [b T].
  assert (T0 : tr (fun _ => Un) (map (fun s => ONew s KMat []) [LOp; LM; LMHead]) bn_own) by (intros x; destruct x; reflexivity).
  assert (T1 : tr (bn_any b) (map ODrop [LOp; LM; LMHead]) (fun x => match bn_any b x with Li _ _ => Nu | s => s end)) by (intros x; destruct x, b; reflexivity).
  destruct (run_tr _ _ _ _ (tr_app _ _ _ _ _ T0 (tr_app _ _ _ _ _ T T1)) empty_state) as (h & E & S). exists h. split; [exact E|].
  apply (state_empty h _ S). intros x. destruct (bn_any b x); reflexivity.
Qed.

Lemma bnhead_frees k : exists h, run empty_heap (library_user [LOp; LM; LMHead] (create_bnhead sh LOp n LBn) LBn k) = Ok h /\ nothing_alive h.
Proof. apply user_frees. exact bnhead_call_tr. Qed.
Lemma bn_frees k : exists h, run empty_heap (library_user [LOp; LM; LMHead] (create_bn sh LOp LM LMHead n LBn) LBn k) = Ok h /\ nothing_alive h.
Proof. apply user_frees. exact bn_call_tr. Qed.

(** The third one: its inverse mass is left behind. *)
Definition m_body : list op :=
  [ONew LBn KMat (kept sh [V LOp KMat]); ONew LMInv KVec []; OUse (V LM KMat); OUse (V LBn KMat)] ++
  (if n =? 1 then []
   else
     [ONew Lleft KMat (kept sh [V LOp KMat]); OUse (V LMInv KVec)] ++
     flat_map (fun term => bn_term sh Lleft term ++ [OUse (V LMInv KVec); OUse (V LBn KMat); ODrop Lright]) (zrange 2 (n + 1)) ++
     [ODrop Lleft; OLeave Lleft; OLeave Lright; OLeave Ltemp]).
Definition m_out (x : slot) : status := match x with LOp | LM | LBn => Li KMat [] | LMInv => Li KVec [] | _ => Un end.
Definition m_own (x : slot) : status := match x with LOp | LM => Li KMat [] | _ => Un end.

Lemma m_body_tr : tr m_own m_body m_out.
Proof.
  intros x. unfold m_body.
  assert (H1 : forall st st1 st2, acts x [ONew LBn KMat (kept sh [V LOp KMat]); ONew LMInv KVec []; OUse (V LM KMat); OUse (V LBn KMat)] st = Some st1 ->
    (n =? 1 = true -> st1 = st2) ->
    (n =? 1 = false -> exists st3, acts x [ONew Lleft KMat (kept sh [V LOp KMat]); OUse (V LMInv KVec)] st1 = Some st3 /\
       exists st4, acts x (flat_map (fun term => bn_term sh Lleft term ++ [OUse (V LMInv KVec); OUse (V LBn KMat); ODrop Lright]) (zrange 2 (n + 1))) st3 = Some st4 /\
       acts x [ODrop Lleft; OLeave Lleft; OLeave Lright; OLeave Ltemp] st4 = Some st2) ->
    acts x ([ONew LBn KMat (kept sh [V LOp KMat]); ONew LMInv KVec []; OUse (V LM KMat); OUse (V LBn KMat)] ++
      (if n =? 1 then [] else [ONew Lleft KMat (kept sh [V LOp KMat]); OUse (V LMInv KVec)] ++
       flat_map (fun term => bn_term sh Lleft term ++ [OUse (V LMInv KVec); OUse (V LBn KMat); ODrop Lright]) (zrange 2 (n + 1)) ++
       [ODrop Lleft; OLeave Lleft; OLeave Lright; OLeave Ltemp])) st = Some st2).
  { intros st st1 st2 A B C. apply (acts_app _ _ _ _ _ _ A). destruct (n =? 1).
    - rewrite (B eq_refl). reflexivity.
    - destruct (C eq_refl) as (st3 & D1 & st4 & D2 & D3). exact (acts_app _ _ _ _ _ _ D1 (acts_app _ _ _ _ _ _ D2 D3)). }
  assert (L : bn_local LBn = false) by reflexivity. assert (L' : bn_local Lleft = false) by reflexivity.
  assert (Same : forall st, bn_local x = false -> (slot_eqb Lleft x = true -> check (V Lleft KMat) st = true) -> check_at x (V LMInv KVec) st = true -> check_at x (V LBn KMat) st = true ->
    acts x (flat_map (fun term => bn_term sh Lleft term ++ [OUse (V LMInv KVec); OUse (V LBn KMat); ODrop Lright]) (zrange 2 (n + 1))) st = Some st).
  { intros st Hl Hc Hi Hb. apply acts_flat_same. intros t _. apply (acts_app _ _ _ st st); [apply (bn_term_other sh Lleft); assumption|].
    unfold bn_local in Hl. apply orb_false_elim in Hl as [Hr _]. cbn [acts act]. rewrite Hi. cbn [ask]. rewrite Hb. cbn [ask]. now rewrite Hr. }
  assert (E : x = Lright \/ x = Ltemp \/ (x <> Lright /\ x <> Ltemp)) by (destruct x; try (right; right; split; discriminate); auto).
  destruct E as [->|[->|[Er Et]]].
  - apply (H1 _ Un); [piece|reflexivity|]. intros _. exists Un. split; [piece|].
    destruct (acts_flat_dead Lright (zrange 2 (n + 1)) (fun term => bn_term sh Lleft term ++ [OUse (V LMInv KVec); OUse (V LBn KMat); ODrop Lright]) Un eq_refl)
      as (s1 & E1 & D1).
    { intros i s _ Hs. exists Nu. split; [|reflexivity]. apply (acts_app _ _ _ s (Li KMat [])); [|reflexivity].
      now apply (bn_term_right sh Lleft LBn eq_refl eq_refl eq_refl). }
    exists s1. split; [exact E1|]. cbn [acts act]. change (slot_eqb Lleft Lright) with false. change (slot_eqb Ltemp Lright) with false. cbn iota.
    rewrite slot_eqb_refl, D1. reflexivity.
  - apply (H1 _ Un); [piece|reflexivity|]. intros _. exists Un. split; [piece|]. exists Un. split; [|reflexivity].
    apply acts_flat_same. intros t _. apply (acts_app _ _ _ Un Un); [|reflexivity]. exact (bn_term_temp sh Lleft LBn eq_refl eq_refl eq_refl t).
  - clear L L'. destruct x; try congruence; cbn [m_own m_out]; eapply H1; try (intros _; reflexivity); try piece;
      intros _; eexists; (split; [piece|]); eexists; (split; [apply Same; try reflexivity; try discriminate|]); piece.
Qed.

(** A memory that differs by a variable that is gone. *)
Definition same_but (x : slot) (h h' : heap) : Prop :=
  h_objs h' = h_objs h /\ find_var (h_vars h') x = None /\ forall s, slot_eqb s x = false -> find_var (h_vars h') s = find_var (h_vars h) s.

Lemma drop_same_but x s h h' h1 : same_but x h h' -> slot_eqb s x = false -> exec h (ODrop s) = Ok h1 ->
  exists h1', exec h' (ODrop s) = Ok h1' /\ same_but x h1 h1'.
Proof.
  intros (A & B & C) Hs. cbn [exec]. rewrite (C s Hs), A. destruct (find_var (h_vars h) s) as [[i|]|]; intros E; [|injection E as <-; exists h'; repeat split; assumption|discriminate].
  destruct (release_all (h_objs h) [i]) as [l| |]; cbn [bind] in *; try discriminate. injection E as <-. eexists. split; [reflexivity|].
  unfold same_but. cbn [h_objs h_vars]. split; [reflexivity|]. rewrite find_var_set, Hs. split; [exact B|].
  intros t Ht. rewrite !find_var_set. destruct (slot_eqb s t); auto.
Qed.

Lemma m_leaks : exists h, run empty_heap (library_user [LOp; LM] (create_bn_m sh LOp LM n LBn) LBn 1) = Ok h /\ lost h.
Proof.
  unfold library_user. cbn [repeat concat map]. rewrite app_nil_r.
  assert (Ec : create_bn_m sh LOp LM n LBn = m_body ++ [OLeave LMInv]).
  { unfold create_bn_m, m_body. rewrite <- app_assoc. reflexivity. }
  rewrite Ec.
  replace ([ONew LOp KMat []; ONew LM KMat []] ++ ((m_body ++ [OLeave LMInv]) ++ [ODrop LBn]) ++ [ODrop LOp; ODrop LM])
    with (([ONew LOp KMat []; ONew LM KMat []] ++ m_body) ++ OLeave LMInv :: [ODrop LBn; ODrop LOp; ODrop LM]) by now rewrite <- !app_assoc.
  assert (T0 : tr (fun _ => Un) [ONew LOp KMat []; ONew LM KMat []] m_own) by (intros x; destruct x; reflexivity).
  destruct (run_tr _ _ _ _ (tr_app _ _ _ _ _ T0 m_body_tr) empty_state) as (h & E & S).
  rewrite run_app, E. cbn [bind].
  assert (T1 : tr m_out [ODrop LBn; ODrop LOp; ODrop LM] (fun x => match x with LBn | LOp | LM => Nu | _ => m_out x end)) by (intros x; destruct x; reflexivity).
  destruct (run_tr _ _ _ _ T1 S) as (h3 & E3 & [_ R3]).
  set (hl := {| h_next := h_next h; h_objs := h_objs h; h_vars := del_var (h_vars h) LMInv |}).
  assert (B0 : same_but LMInv h hl).
  { unfold same_but, hl. cbn [h_objs h_vars]. split; [reflexivity|]. rewrite find_var_del, slot_eqb_refl. split; [reflexivity|].
    intros s Hs. rewrite find_var_del. now rewrite slot_eqb_sym, Hs. }
  unfold run in E3 |- *. cbn [foldM] in E3 |- *. change (exec h (OLeave LMInv)) with (Ok hl). cbn [bind].
  apply bind_ok_inv in E3 as (h1 & D1 & E3). apply bind_ok_inv in E3 as (h2 & D2 & E3). apply bind_ok_inv in E3 as (h4 & D3 & E3). injection E3 as <-.
  destruct (drop_same_but _ LBn _ _ _ B0 eq_refl D1) as (g1 & F1 & B1). destruct (drop_same_but _ LOp _ _ _ B1 eq_refl D2) as (g2 & F2 & B2).
  destruct (drop_same_but _ LM _ _ _ B2 eq_refl D3) as (g3 & F3 & B3). rewrite F1. cbn [bind]. rewrite F2. cbn [bind]. rewrite F3. cbn [bind].
  exists g3. split; [reflexivity|]. destruct B3 as (A3 & N3 & V3).
  pose proof (R3 LMInv) as (i & o & G1 & G2 & _). exists i, o. rewrite A3. split; [exact G2|]. intros Hr.
  apply reachable_root in Hr as (s & j & Hs). destruct (slot_eqb s LMInv) eqn:Es.
  - apply slot_eqb_eq in Es. subst s. congruence.
  - rewrite (V3 s Es) in Hs. specialize (R3 s). destruct s; cbn in R3; try congruence. discriminate Es.
Qed.
End Bn.
