(** Proofs about moving bodies: positions, velocities and operators of every
    step, and the files of the bodies. *)
From Coq Require Import String ZifyBool.
From Verif Require Import Prelude ZSum RSum TypesModel GridModel GridSpec GridProof MeshProof IndexModel IndexSpec IndexProof
  BoundaryModel BoundarySpec BoundaryProof OperatorModel OperatorSpec OperatorProof BStateProof SymProof
  MatModel BnModel NSModel NSSpec NSProof NSTotal BodyModel BodySpec BodyProof BodyText
  DeltaModel DeltaSpec DeltaOp NameModel NameProof IbpmModel IbpmSpec IbpmProof IbpmStep IbpmDec.
Local Open Scope R_scope.

(** * Lists *)
Lemma Forall2_len {A B} (R0 : A -> B -> Prop) l l' : Forall2 R0 l l' -> List.length l = List.length l'.
Proof. induction 1; cbn; auto. Qed.
Lemma set_coords_at bodies cs : List.length cs = List.length bodies -> set_coords bodies cs = bodies_at bodies cs.
Proof.
  unfold set_coords, bodies_at. revert cs. induction bodies as [|bc t IH]; intros [|c cs] L; try discriminate; [reflexivity|].
  cbn [combine map fst snd]. f_equal. apply IH. now injection L.
Qed.
Lemma at_fst bodies cs : List.length cs = List.length bodies -> map fst (bodies_at bodies cs) = map fst bodies.
Proof.
  unfold bodies_at. revert cs. induction bodies as [|bc t IH]; intros [|c cs] L; try discriminate; [reflexivity|].
  cbn [combine map fst]. f_equal. apply IH. now injection L.
Qed.
Lemma at_snd bodies cs : List.length cs = List.length bodies -> map snd (bodies_at bodies cs) = cs.
Proof.
  unfold bodies_at. revert cs. induction bodies as [|bc t IH]; intros [|c cs] L; try discriminate; [reflexivity|].
  cbn [combine map snd]. f_equal. apply IH. now injection L.
Qed.
Lemma at_self (bodies : list (body * list (list R))) : bodies_at bodies (map snd bodies) = bodies.
Proof. unfold bodies_at. induction bodies as [|[b c] t IH]; [reflexivity|]. cbn [combine map fst snd]. now rewrite IH. Qed.
Lemma at_at bodies cs cs' : List.length cs = List.length bodies -> bodies_at (bodies_at bodies cs) cs' = bodies_at bodies cs'.
Proof. intros L. unfold bodies_at at 1 3. now rewrite at_fst. Qed.
Lemma shape_len (bodies : list (body * list (list R))) cs : same_shape cs (map snd bodies) -> List.length cs = List.length bodies.
Proof. intros H. apply Forall2_len in H. now rewrite map_length in H. Qed.
Lemma shape_refl l : same_shape l l.
Proof. induction l as [|c t IH]; constructor; auto. induction c as [|r u IHu]; constructor; auto. Qed.
Lemma rows_shape n c c' : Forall2 (fun row row' : list R => lenZ row = lenZ row') c c' -> Forall (fun row : list R => lenZ row = n) c' -> Forall (fun row : list R => lenZ row = n) c.
Proof. induction 1; intros H'; constructor; inversion H'; subst; auto. Qed.
Lemma ok_at m D bodies cs : bodies_ok m D bodies -> same_shape cs (map snd bodies) -> bodies_ok m D (bodies_at bodies cs).
Proof.
  intros [Hp Hf] Hs. pose proof (shape_len _ _ Hs) as L. split; [now rewrite at_fst|]. clear Hp L. revert cs Hs Hf. unfold bodies_at.
  induction bodies as [|bc t IH]; intros cs Hs Hf; inversion Hs; subst; [constructor|].
  cbn [map combine] in *. inversion Hf as [|? ? [K1 K2] Hf']; subst. constructor; cbn [fst snd]; [|apply IH; auto].
  split; [|eapply rows_shape; eauto]. rewrite <- K1. unfold lenZ. f_equal. eapply Forall2_len; eauto.
Qed.
Lemma forces_at m bodies cs : List.length cs = List.length bodies -> n_forces m (bodies_at bodies cs) = n_forces m bodies.
Proof. intros L. unfold n_forces. now rewrite at_fst. Qed.
Lemma located_at bodies cs b i X : List.length cs = List.length bodies ->
  located (bodies_at bodies cs) b i X <-> exists c, nthZ cs b = Some c /\ nthZ c i = Some X.
Proof.
  intros L. unfold located. pose proof (at_snd bodies cs L) as A. split.
  - intros (bc & E & EX). exists (snd bc). rewrite <- A, nthZ_map, E. auto.
  - intros (c & E & EX). rewrite <- A, nthZ_map in E. destruct (nthZ (bodies_at bodies cs) b) as [bc|]; [|discriminate]. injection E as <-. eauto.
Qed.

(** * The operators do not depend on the history of the boundary *)
Lemma flags_value m D types values hist B r : mfacts m D -> bc_fits m types -> boundary_after m D types values hist B -> (0 <= r < nranks D)%Z ->
  delta_flags m (B r) = Ok (map (fun d => bctype_eqb (types 0%Z d) PERIODIC) (zrange 0 (m_dim m))).
Proof.
  intros F Hb HB Hr. unfold delta_flags. apply mapM_ok. intros d Hd. apply zrange_In in Hd. pose proof (mf_dim _ _ F) as Hdim.
  rewrite (after_pure m D types values hist B r F Hb HB Hr). unfold pure_state.
  unfold rd at 1. rewrite nthZ_map, nthZ_zrange by lia. cbn [option_map bind].
  unfold rd. rewrite nthZ_map, nthZ_zrange by lia. cbn [option_map bind]. f_equal. cbn [Z.add].
  unfold sb_after, with_points. cbn [sb_type]. unfold bsb. destruct (types 0%Z d); reflexivity.
Qed.
Lemma mapM_same {A B} (f g : A -> res B) l : (forall x, In x l -> f x = g x) -> mapM f l = mapM g l.
Proof. induction l as [|x t IH]; intros H; [reflexivity|]. cbn [mapM]. rewrite H by now left. rewrite IH; [reflexivity|]. intros; apply H; now right. Qed.
Lemma extra_same m D P types values h B h' B' O name bodies : mfacts m D -> bc_fits m types ->
  boundary_after m D types values h B -> boundary_after m D types values h' B' ->
  createExtraOperators m D B P O name bodies = createExtraOperators m D B' P O name bodies.
Proof.
  intros F Hb HB HB'. unfold createExtraOperators, ib_operators, createDelta.
  assert (E : forall ks : kernel * Z,
     mapM (fun r => do mi <- bp_updateMeshIdx m (m_dim m) bodies r; createDelta_rank m D (B r) (fst ks) (snd ks) bodies mi r) (zrange 0 (nranks D)) =
     mapM (fun r => do mi <- bp_updateMeshIdx m (m_dim m) bodies r; createDelta_rank m D (B' r) (fst ks) (snd ks) bodies mi r) (zrange 0 (nranks D))).
  { intros ks. apply mapM_same. intros r Hr. apply zrange_In in Hr. destruct (bp_updateMeshIdx m (m_dim m) bodies r) as [mi| |]; try reflexivity. cbn [bind].
    unfold createDelta_rank. now rewrite (flags_value m D types values h B r F Hb HB Hr), (flags_value m D types values h' B' r F Hb HB' Hr). }
  destruct (createR m D) as [rm| |]; try reflexivity. cbn [bind]. destruct (createMHead m D) as [mh| |]; try reflexivity. cbn [bind].
  destruct (getKernel name) as [ks| |]; try reflexivity. cbn [bind]. now rewrite E.
Qed.

(** * Steps *)
Section Moving.
Variables (m : mesh) (D : dec) (P : nspar) (types : Z -> Z -> bctype) (values : Z -> Z -> R).
Hypotheses (Hset : mesh_setup m D) (Hb : bc_fits m types).
Let F := setup_facts m D Hset.
Variables (name : string) (bodies : list (body * list (list R))) (mo : motion) (pos : R -> list (list (list R))) (vel : R -> Z -> Z -> Z -> R).
Hypotheses (Hbo : bodies_ok m D bodies) (Hmo : prescribed m D bodies mo pos vel).
Variables (conv : boundary -> vec -> res vec) (vs ps : vec -> vec -> vec) (fsolve : mat -> vec -> vec -> vec).
Notation step O := (r_advance m D P O name mo conv vs ps fsolve).

Lemma shape_pos t : same_shape (pos t) (map snd bodies).
Proof. exact (proj1 (Hmo t)). Qed.
Lemma len_pos t : List.length (pos t) = List.length bodies.
Proof. exact (shape_len _ _ (shape_pos t)). Qed.

(** The points before a step: some shape-preserving positions. *)
Definition shaped (s : rstate) : Prop := exists cs, same_shape cs (map snd bodies) /\ r_bodies s = bodies_at bodies cs.

Lemma move_inv O ti s s1 : shaped s -> moveBodies m D P O name mo ti s = Ok s1 ->
  r_x s1 = r_x s /\ r_bodies s1 = bodies_at bodies (pos ti) /\ holds_velocity m D bodies (r_UB s1) (vel ti) /\
  createExtraOperators m D (s_bc (x_ns (r_x s))) P O name (r_bodies s1) = Ok (r_ops s1) /\ r_solver s1 = di_EBNH (r_ops s1).
Proof.
  intros (cs & Hs & Eb) H. unfold moveBodies in H. destruct (Hmo ti) as (_ & Hm & Hv). pose proof (shape_len _ _ Hs) as L.
  rewrite Eb, at_snd, Hm in H by auto. cbn [bind] in H. destruct (Hv (r_UB s)) as (v' & Ev & Hh). rewrite Ev in H. cbn [bind] in H. cbv zeta in H.
  rewrite set_coords_at in H by (rewrite len_pos; unfold bodies_at; rewrite combine_length, map_length, L; lia). rewrite at_at in H by auto.
  apply bind_ok_inv in H. destruct H as (X & EX & H). injection H as <-. cbn [r_x r_bodies r_UB r_ops r_solver]. auto.
Qed.
Lemma r_advance_inv O s s2 : shaped s -> step O s = Ok s2 ->
  let t := s_t (x_ns (r_x s)) + p_dt P in
  r_bodies s2 = bodies_at bodies (pos t) /\ holds_velocity m D bodies (r_UB s2) (vel t) /\
  createExtraOperators m D (s_bc (x_ns (r_x s))) P O name (r_bodies s2) = Ok (r_ops s2) /\ r_solver s2 = di_EBNH (r_ops s2) /\
  d_advance m D P O (r_ops s2) (n_forces m (r_bodies s2)) conv (r_assembleRHSForces m (r_ops s2) (r_UB s2)) vs ps (fsolve (r_solver s2)) (r_x s) = Ok (r_x s2).
Proof.
  intros Hs H t. unfold r_advance in H. apply bind_ok_inv in H. destruct H as (s1 & E1 & H). fold t in E1.
  destruct (move_inv O t s s1 Hs E1) as (X1 & X2 & X3 & X4 & X5). apply bind_ok_inv in H. destruct H as (x & Ex & H). injection H as <-.
  cbn [r_x r_bodies r_UB r_ops r_solver]. rewrite X1 in Ex. auto.
Qed.
Lemma shaped_at s t : r_bodies s = bodies_at bodies (pos t) -> shaped s.
Proof. intros E. exists (pos t). split; [apply shape_pos|exact E]. Qed.

Lemma r_init_inv t0 n0 U0 p0 O s0 : r_init m D P types values name bodies t0 n0 U0 p0 = Ok (O, s0) ->
  exists B X x0, boundary_after m D types values [OpICs U0] B /\ createOperators m D B P = Ok O /\
    d_init m D P types values name bodies t0 n0 U0 p0 = Ok (O, X, x0) /\ createExtraOperators m D B P O name bodies = Ok X /\
    s0 = mkRS x0 bodies (fun _ => 0) X (di_EBNH X) /\ s_t (x_ns x0) = t0 /\ s_ite (x_ns x0) = n0.
Proof.
  intros H. unfold r_init in H. apply bind_ok_inv in H. destruct H as ([[O' X] x0] & E & H). injection H as <- <-.
  destruct (d_init_inv m D P types values Hset Hb _ _ _ _ _ _ _ _ _ E) as (B & HB & EO & EX & E0). exists B, X, x0. cbn [fst snd].
  repeat split; auto; rewrite E0; reflexivity.
Qed.
Lemma shaped_init t0 n0 U0 p0 O s0 : r_init m D P types values name bodies t0 n0 U0 p0 = Ok (O, s0) -> shaped s0.
Proof.
  intros H. destruct (r_init_inv _ _ _ _ _ _ H) as (B & X & x0 & _ & _ & _ & _ & -> & _). exists (map snd bodies). cbn [r_bodies]. rewrite at_self. split; [apply shape_refl|reflexivity].
Qed.

Lemma r_steps t0 n0 U0 p0 O s0 k s : r_init m D P types values name bodies t0 n0 U0 p0 = Ok (O, s0) -> run_steps (step O) k s0 = Ok s ->
  shaped s /\ (exists h1, boundary_after m D types values ([OpICs U0] ++ h1) (s_bc (x_ns (r_x s)))) /\
  s_t (x_ns (r_x s)) = t0 + INR k * p_dt P /\ s_ite (x_ns (r_x s)) = (n0 + Z.of_nat k)%Z /\
  (lenZ (s_conv (x_ns (r_x s))) <= lenZ (p_cexp P))%Z /\ (lenZ (s_diff (x_ns (r_x s))) <= lenZ (p_dexp P))%Z.
Proof.
  intros HI. pose proof (shaped_init _ _ _ _ _ _ HI) as S0. destruct (r_init_inv _ _ _ _ _ _ HI) as (B & X & x0 & HB & EO & ED & EX & Es & Et & En).
  revert s. induction k as [|k IH]; intros s H.
  - injection H as <-. rewrite Es in *. cbn [r_x]. split; [exact S0|].
    destruct (d_init_inv m D P types values Hset Hb _ _ _ _ _ _ _ _ _ ED) as (B' & HB' & _ & _ & E0). split; [exists []; rewrite E0; exact HB'|].
    rewrite Et, En. rewrite E0. cbn [x_ns s_conv s_diff]. rewrite !lenZ_map. cbn [INR Z.of_nat]. repeat split; try lia. ring.
  - cbn [run_steps] in H. apply bind_ok_inv in H. destruct H as (s' & Es' & Ea). destruct (IH s' Es') as (Hs' & (h1 & Hh1) & T' & N' & L1 & L2).
    destruct (r_advance_inv O s' s Hs' Ea) as (X1 & X2 & X3 & X4 & X5). split; [now apply (shaped_at _ _ X1)|].
    split; [exact (d_advance_boundary m D P types values Hset Hb O U0 h1 _ _ _ _ _ _ _ _ _ Hh1 X5)|].
    destruct (d_advance_inv _ _ _ _ _ _ _ _ _ _ _ _ _ X5) as (rhs0 & s1 & b & _ & _ & _ & _ & _ & _ & _ & _ & _ & Xt & Xn & _). cbv zeta in *.
    destruct (d_advance_lens _ _ _ _ _ _ _ _ _ _ _ _ _ X5) as [-> ->]. rewrite Xt, Xn, T', N', S_INR. repeat split; auto; [ring|lia].
Qed.

(** After every step: points, velocities and operators are those of the time
    reached. *)
Lemma moving_state t0 n0 U0 p0 O s0 k s : r_init m D P types values name bodies t0 n0 U0 p0 = Ok (O, s0) -> run_steps (step O) (S k) s0 = Ok s ->
  let t := t0 + INR (S k) * p_dt P in
  s_t (x_ns (r_x s)) = t /\ s_ite (x_ns (r_x s)) = (n0 + Z.of_nat (S k))%Z /\
  r_bodies s = bodies_at bodies (pos t) /\ holds_velocity m D bodies (r_UB s) (vel t) /\
  (exists B, boundary_after m D types values [OpICs U0] B /\ createExtraOperators m D B P O name (bodies_at bodies (pos t)) = Ok (r_ops s)) /\
  r_solver s = di_EBNH (r_ops s).
Proof.
  intros HI H t. destruct (r_steps _ _ _ _ _ _ _ _ HI H) as (_ & _ & T & N & _). split; [exact T|]. split; [exact N|].
  cbn [run_steps] in H. apply bind_ok_inv in H. destruct H as (s' & Es' & Ea). destruct (r_steps _ _ _ _ _ _ _ _ HI Es') as (Hs' & (h1 & Hh1) & T' & _).
  destruct (r_advance_inv O s' s Hs' Ea) as (X1 & X2 & X3 & X4 & X5). rewrite T' in X1, X2.
  replace (t0 + INR k * p_dt P + p_dt P) with t in X1, X2 by (unfold t; rewrite S_INR; ring).
  split; [exact X1|]. split; [exact X2|]. split; [|exact X4].
  destruct (r_init_inv _ _ _ _ _ _ HI) as (B & X & x0 & HB & _). exists B. split; [exact HB|]. rewrite <- X1, <- X3. exact (extra_same m D P types values _ B _ _ O name (r_bodies s) F Hb HB Hh1).
Qed.

(** The run does not fail while the points stay inside. *)
Lemma moving_total K w t0 n0 U0 p0 k : getKernel name = Ok (K, w) -> (1 <= p_bn P)%Z ->
  (forall b i X, located bodies b i X -> inside_domain m X /\ in_reach m types w X) ->
  (forall j b i X, (1 <= j <= k)%nat -> located (bodies_at bodies (pos (t0 + INR j * p_dt P))) b i X -> inside_domain m X /\ in_reach m types w X) ->
  (forall b bc r, nthZ bodies b = Some bc -> (0 <= r < nranks D)%Z -> (0 < b_l (fst bc) r)%Z) ->
  (forall hist B x, boundary_after m D types values ([OpICs U0] ++ hist) B -> is_ok (conv B x)) ->
  exists O s0 s, r_init m D P types values name bodies t0 n0 U0 p0 = Ok (O, s0) /\ run_steps (step O) k s0 = Ok s.
Proof.
  intros HK Hn Hin0 Hin Hrk Hc.
  destruct (decoupled_total m D P types values Hset Hb K w name bodies conv (d_assembleRHSForces m) vs ps (fun _ b => b) t0 n0 U0 p0 0%nat Hbo HK Hn Hin0 Hrk Hc) as (O & X & x0 & _ & ED & _).
  assert (HI : r_init m D P types values name bodies t0 n0 U0 p0 = Ok (O, mkRS x0 bodies (fun _ => 0) X (di_EBNH X))) by (unfold r_init; rewrite ED; reflexivity).
  exists O, (mkRS x0 bodies (fun _ => 0) X (di_EBNH X)).
  assert (S : exists s, run_steps (step O) k (mkRS x0 bodies (fun _ => 0) X (di_EBNH X)) = Ok s).
  { clear ED. induction k as [|k IH]; [eexists; reflexivity|]. destruct IH as [s Hk]; [intros; eapply (Hin j); eauto; lia|]. cbn [run_steps]. rewrite Hk. cbn [bind].
    destruct (r_steps _ _ _ _ _ _ _ _ HI Hk) as ((cs & Hcs & Ecs) & (h1 & Hh1) & T' & _ & L1 & L2). unfold r_advance, moveBodies. rewrite T'.
    replace (t0 + INR k * p_dt P + p_dt P) with (t0 + INR (S k) * p_dt P) by (rewrite S_INR; ring). set (t := t0 + INR (S k) * p_dt P).
    destruct (Hmo t) as (_ & Hm & Hv). pose proof (shape_len _ _ Hcs) as L. rewrite Ecs, at_snd, Hm by auto. cbn [bind].
    destruct (Hv (r_UB s)) as (v' & Ev & Hh). rewrite Ev. cbn [bind]. cbv zeta.
    rewrite set_coords_at by (rewrite len_pos; unfold bodies_at; rewrite combine_length, map_length, L; lia). rewrite at_at by auto.
    destruct (extra_total m D P types values Hset Hb K w O (s_bc (x_ns (r_x s))) _ name (bodies_at bodies (pos t)) (ok_at _ _ _ _ Hbo (shape_pos t)) HK Hn Hh1) as [X' EX'].
    - intros b i Y HY. apply (Hin (S k) b i Y); [lia|exact HY].
    - intros b bc r E Hr. assert (E2 : nthZ (map fst (bodies_at bodies (pos t))) b = Some (fst bc)) by now rewrite nthZ_map, E.
      rewrite at_fst, nthZ_map in E2 by apply len_pos. destruct (nthZ bodies b) as [bc0|] eqn:E0; [|discriminate]. injection E2 as <-. now apply (Hrk b bc0 r).
    - rewrite EX'. cbn [bind r_x r_ops r_bodies r_UB r_solver].
      destruct (r_init_inv _ _ _ _ _ _ HI) as (B & X0 & x0' & HB & EO & _).
      destruct (d_advance_total m D P types values Hset Hb O B U0 h1 X' (n_forces m (bodies_at bodies (pos t))) conv (r_assembleRHSForces m X' v') vs ps (fsolve (di_EBNH X')) (r_x s) EO HB Hh1 L1 L2 (Hc h1 _ _ Hh1)) as [x2 Ex2].
      rewrite Ex2. eexists. reflexivity. }
  destruct S as [s Hs]. eauto.
Qed.
End Moving.
