(** The Poisson matrix of order one. *)
From Coq Require Import ZifyBool.
From Verif Require Import Prelude ZSum RSum TypesModel GridModel GridSpec GridProof MeshProof IndexModel IndexSpec IndexProof
  BoundaryModel BoundarySpec BoundaryProof OperatorModel OperatorSpec OperatorProof BStateProof LapProof DivProof GradProof AdjProof SymProof
  MatModel BnModel BnSpec BnProof NSModel NSSpec NSProof.
Local Open Scope R_scope.

Lemma zsum_single k (f : Z -> R) n : (0 <= k < n)%Z -> zsum (fun l => if (l =? k)%Z then f l else 0) 0 n = f k.
Proof.
  intros Hk. unfold zsum. rewrite (sumR_single _ _ k).
  - now rewrite Z.eqb_refl.
  - apply zrange_NoDup.
  - now apply zrange_In.
  - intros y Hy Hne. now replace (y =? k)%Z with false by lia.
Qed.

(** D Bn G before pinning. *)
Definition unpinned (m : mesh) (O : nsops) : mat := mmul (n_velocity m) (entry (op_log (o_D O))) (o_BNG O).

Lemma order_one_full m D P types values t0 n0 U0 p0 ops s0 :
  mesh_setup m D -> bc_fits m types -> periodic_min m 2 -> no_normal_neumann m types -> p_bn P = 1%Z ->
  ns_init m D P types values t0 n0 U0 p0 = Ok (ops, s0) ->
  exists (w : Z -> R) (g : mat), (forall c, (0 <= c < n_velocity m)%Z -> 0 < w c) /\
    (forall i j, (0 <= i < n_pressure m)%Z -> (0 <= j < n_pressure m)%Z ->
       unpinned m ops i j = - p_dt P * zsum (fun c => w c * (g c i * g c j)) 0 (n_velocity m)) /\
    (forall i j, o_DBNG ops i j = (if p_refp P then pin (unpinned m ops) else unpinned m ops) i j) /\
    (forall y, (forall c, (0 <= c < n_velocity m)%Z -> mvec (n_pressure m) g y c = 0) ->
       forall c c', (0 <= c < n_pressure m)%Z -> (0 <= c' < n_pressure m)%Z -> y c = y c').
Proof.
  intros Hset Hb Hmin Hn Hbn HI. pose proof (setup_facts _ _ Hset) as F.
  destruct (ns_init_inv _ _ _ _ _ _ _ _ _ _ _ F Hb HI) as (B0 & HB0 & EO & _).
  destruct (createOperators_inv _ _ _ _ _ EO) as (d & g & l & BN & Ed & Eg & El & EB & EOps).
  rewrite Hbn in EB. cbn in EB. injection EB as EB.
  assert (Hics : has_ics [OpICs U0]) by (exists U0; now left).
  rewrite (createDivergence_ok m D types values false [OpICs U0] B0 F Hb HB0) in Ed. injection Ed as <-.
  rewrite createGradient_ok in Eg by auto. injection Eg as <-.
  exists (dg_weight m D false), (entry (asm_ins (nranks D) (grad_rows m D false))). split; [|split; [|split]].
  - intros c Hc. exact (dg_weight_pos m D types values false [OpICs U0] F c Hc).
  - intros i j Hi Hj. unfold unpinned. rewrite EOps. cbn [o_D o_BNG]. unfold mmul at 1. unfold zsum. rewrite <- sumR_scal. apply sumR_ext. intros c Hc. apply zrange_In in Hc.
    rewrite (dg_entry m D types values false [OpICs U0] F Hb Hics Hmin Hn i c Hi Hc).
    replace (mmul (n_velocity m) BN _ c j) with (p_dt P * entry (asm_ins (nranks D) (grad_rows m D false)) c j); [ring|].
    unfold mmul. rewrite (zsum_ext _ (fun l => if (l =? c)%Z then p_dt P * entry (asm_ins (nranks D) (grad_rows m D false)) l j else 0)).
    + now rewrite (zsum_single c (fun l => p_dt P * entry (asm_ins (nranks D) (grad_rows m D false)) l j)).
    + intros q Hq. rewrite <- EB. unfold mshift, mzero. rewrite (Z.eqb_sym c q). destruct (q =? c)%Z; ring.
  - intros i j. rewrite EOps. cbn [o_DBNG o_D o_BNG]. reflexivity.
  - intros y. apply (grad_zero_const m D false y F Hmin).
Qed.
Lemma order_one m D P types values t0 n0 U0 p0 ops s0 :
  mesh_setup m D -> bc_fits m types -> periodic_min m 2 -> no_normal_neumann m types -> p_bn P = 1%Z ->
  ns_init m D P types values t0 n0 U0 p0 = Ok (ops, s0) ->
  exists (w : Z -> R) (g : mat), (forall c, (0 <= c < n_velocity m)%Z -> 0 < w c) /\
    (forall i j, (0 <= i < n_pressure m)%Z -> (0 <= j < n_pressure m)%Z ->
       unpinned m ops i j = - p_dt P * zsum (fun c => w c * (g c i * g c j)) 0 (n_velocity m)) /\
    (forall i j, o_DBNG ops i j = (if p_refp P then pin (unpinned m ops) else unpinned m ops) i j).
Proof. intros. destruct (order_one_full m D P types values t0 n0 U0 p0 ops s0) as (w & g & X1 & X2 & X3 & _); eauto. Qed.

Lemma order_one_form m ops (w : Z -> R) (g : mat) dt y :
  (forall i j, (0 <= i < n_pressure m)%Z -> (0 <= j < n_pressure m)%Z ->
     unpinned m ops i j = - dt * zsum (fun c => w c * (g c i * g c j)) 0 (n_velocity m)) ->
  zsum (fun i => y i * mvec (n_pressure m) (unpinned m ops) y i) 0 (n_pressure m) =
  - dt * zsum (fun c => w c * (mvec (n_pressure m) g y c * mvec (n_pressure m) g y c)) 0 (n_velocity m).
Proof.
  intros HA. set (np := n_pressure m) in *. set (nv := n_velocity m) in *.
  rewrite (zsum_ext _ (fun i => sumR (fun c => - dt * (w c * (mvec np g y c) * (g c i * y i))) (zrange 0 nv))).
  - unfold zsum. rewrite sumR_swap. rewrite <- sumR_scal. apply sumR_ext. intros c Hc. rewrite sumR_scal, sumR_scal. fold (zsum (fun i => g c i * y i) 0 np). fold (mvec np g y c). ring.
  - intros i Hi. unfold mvec at 1. rewrite (zsum_ext _ (fun l => sumR (fun c => - dt * (w c * (g c i * g c l))) (zrange 0 nv) * y l)).
    + unfold zsum. rewrite (sumR_ext _ (fun l => sumR (fun c => - dt * (w c * g c i) * (g c l * y l)) (zrange 0 nv))) by (intros; rewrite <- sumR_scal_r; apply sumR_ext; intros; ring).
      rewrite sumR_swap, <- sumR_scal. apply sumR_ext. intros c Hc. rewrite sumR_scal. fold (zsum (fun l => g c l * y l) 0 np). fold (mvec np g y c). ring.
    + intros l Hl. rewrite HA by auto. unfold zsum. now rewrite sumR_scal.
Qed.
Lemma order_one_kernel m D P types values t0 n0 U0 p0 ops s0 :
  mesh_setup m D -> bc_fits m types -> periodic_min m 2 -> no_normal_neumann m types -> p_bn P = 1%Z -> p_dt P <> 0 ->
  ns_init m D P types values t0 n0 U0 p0 = Ok (ops, s0) ->
  forall y, zsum (fun i => y i * mvec (n_pressure m) (unpinned m ops) y i) 0 (n_pressure m) = 0 ->
  forall c c', (0 <= c < n_pressure m)%Z -> (0 <= c' < n_pressure m)%Z -> y c = y c'.
Proof.
  intros Hset Hb Hmin Hn Hbn Hdt HI y H. destruct (order_one_full m D P types values t0 n0 U0 p0 ops s0 Hset Hb Hmin Hn Hbn HI) as (w & g & Hw & HA & _ & HK).
  apply HK. rewrite (order_one_form m ops w g (p_dt P) y HA) in H.
  assert (H0 : zsum (fun c => w c * (mvec (n_pressure m) g y c * mvec (n_pressure m) g y c)) 0 (n_velocity m) = 0).
  { apply Rmult_integral in H. destruct H; [lra|auto]. }
  assert (Nn : forall c, In c (zrange 0 (n_velocity m)) -> 0 <= w c * (mvec (n_pressure m) g y c * mvec (n_pressure m) g y c)).
  { intros c0 Hc0. apply zrange_In in Hc0. specialize (Hw c0 Hc0). apply Rmult_le_pos; [lra|apply Rle_0_sqr]. }
  intros c Hc. pose proof (sumR_nonneg_zero _ _ Nn H0 c ltac:(now apply zrange_In)) as Z0. cbv beta in Z0. specialize (Hw c Hc).
  apply Rmult_integral in Z0. destruct Z0 as [Z0|Z0]; [lra|]. apply Rmult_integral in Z0. tauto.
Qed.
