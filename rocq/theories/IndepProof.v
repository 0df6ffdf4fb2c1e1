(** Two runs of an immersed-boundary solver with two sets of linear solvers. *)
From Coq Require Import Lia ZifyBool String List.
Import ListNotations.
From Verif Require Import Prelude ZSum RSum TypesModel GridModel GridSpec GridProof MeshProof
  IndexModel IndexSpec IndexProof BoundaryModel BoundarySpec BoundaryProof OperatorModel OperatorSpec OperatorProof BStateProof LapProof DivProof GradProof
  AdjProof SymProof MatModel BnModel NSModel NSSpec NSProof NSPin BnSpec BnProof LinAlg UniqueProof ConvSpec EnergySpec EnergyProof EnergyRun
  BodyModel BodySpec DeltaModel DeltaSpec IbpmModel IbpmSpec IbpmProof IbpmStep IbpmDec IbpmMove RestartProof DecSpec IndepSpec.
From Verif Require DecProof.
Local Open Scope R_scope.

(** * Vectors *)
Notation V m := (same_entries (n_velocity m)).
Lemma se_refl n x : same_entries n x x. Proof. intros i _. reflexivity. Qed.
Lemma se_axpy n a x1 x2 y1 y2 : same_entries n x1 x2 -> same_entries n y1 y2 -> same_entries n (vaxpy y1 a x1) (vaxpy y2 a x2).
Proof. intros Hx Hy i Hi. unfold vaxpy. now rewrite (Hx i Hi), (Hy i Hi). Qed.
Lemma se_scale n a x1 x2 : same_entries n x1 x2 -> same_entries n (vscale a x1) (vscale a x2).
Proof. intros Hx i Hi. unfold vscale. now rewrite (Hx i Hi). Qed.
Lemma se_mvec n k A x1 x2 : same_entries n x1 x2 -> same_entries k (mvec n A x1) (mvec n A x2).
Proof. intros Hx i _. unfold mvec. apply zsum_ext. intros l Hl. now rewrite (Hx l Hl). Qed.
Lemma se_mvec_at n A x1 x2 i : same_entries n x1 x2 -> mvec n A x1 i = mvec n A x2 i.
Proof. intros Hx. unfold mvec. apply zsum_ext. intros l Hl. now rewrite (Hx l Hl). Qed.
Lemma se_add coeffs n l1 l2 y1 y2 z1 z2 : Forall2 (same_entries n) l1 l2 -> same_entries n y1 y2 ->
  add_terms coeffs l1 y1 = Ok z1 -> add_terms coeffs l2 y2 = Ok z2 -> same_entries n z1 z2.
Proof.
  intros H Hy E1 E2. unfold add_terms in *. rewrite <- (Forall2_lenZ _ _ _ H) in E2. revert y1 y2 Hy E1 E2. induction (zrange 0 (lenZ l1)) as [|i t IH]; intros y1 y2 Hy E1 E2.
  - injection E1 as <-. injection E2 as <-. exact Hy.
  - cbn [foldM] in *. apply bind_ok_inv in E1. destruct E1 as (w1 & X1 & E1). apply bind_ok_inv in X1. destruct X1 as (c & Ec & X1). apply bind_ok_inv in X1. destruct X1 as (v1 & Ev1 & X1).
    injection X1 as <-. rewrite Ec in E2. cbn [bind] in E2. apply rd_Ok in Ev1. destruct (Forall2_nthZ _ _ _ _ _ H Ev1) as (v2 & Ev2 & Hv). apply rd_Ok in Ev2. rewrite Ev2 in E2. cbn [bind] in E2.
    apply (IH _ _ (se_axpy _ c _ _ _ _ Hv Hy) E1 E2).
Qed.
Lemma mvec_minus n A x y i : mvec n A (fun j => x j - y j) i = mvec n A x i - mvec n A y i.
Proof. unfold mvec, zsum. rewrite <- sumR_minus. apply sumR_ext. intros; ring. Qed.

(** Rows multiples of the weighted transposes of the columns: two solutions
    move the velocity alike. [refp]: the first equation may be replaced. *)
Lemma kernel_still nv n (w : Z -> R) (G Dm BG : mat) dt sg (refp : bool) x1 x2 b : dt <> 0 -> sg <> 0 ->
  (forall c, (0 <= c < nv)%Z -> 0 < w c) ->
  (forall r c, (0 <= r < n)%Z -> (0 <= c < nv)%Z -> Dm r c = sg * (w c * G c r)) ->
  (forall c j, (0 <= c < nv)%Z -> (0 <= j < n)%Z -> BG c j = dt * G c j) ->
  let A := mmul nv Dm BG in
  solves n (if refp then pin A else A) x1 b -> solves n (if refp then pin A else A) x2 b ->
  forall c, (0 <= c < nv)%Z -> mvec n G x1 c = mvec n G x2 c.
Proof.
  intros Hdt Hsg Hw HA HB A S1 S2 c Hc. set (d := fun j => x1 j - x2 j).
  assert (AG : forall i, (0 <= i < n)%Z -> mvec n A d i = dt * mvec nv Dm (mvec n G d) i).
  { intros i Hi. unfold A. rewrite mvec_mmul. unfold mvec at 1 3. unfold zsum at 1 2. rewrite <- sumR_scal. apply sumR_ext. intros k Hk. apply zrange_In in Hk.
    assert (E : mvec n BG d k = dt * mvec n G d k). { unfold mvec, zsum. rewrite <- sumR_scal. apply sumR_ext. intros j Hj. apply zrange_In in Hj. rewrite HB by auto. ring. }
    rewrite E. ring. }
  assert (Hd : forall i, (0 <= i < n)%Z -> d i * mvec n A d i = 0).
  { intros i Hi. assert (S : mvec n (if refp then pin A else A) d i = 0) by (unfold d; rewrite mvec_minus, (S1 i Hi), (S2 i Hi); ring).
    destruct refp; [|rewrite S; ring].
    assert (Z0 : d 0%Z = 0).
    { assert (H0 : (0 <= 0 < n)%Z) by lia. assert (T : mvec n (pin A) d 0%Z = 0) by (unfold d; rewrite mvec_minus, (S1 0%Z H0), (S2 0%Z H0); ring).
      rewrite <- T. unfold mvec, zsum. rewrite (sumR_single _ _ 0%Z); [|apply zrange_NoDup|apply zrange_In; lia|].
      - unfold pin. cbn. ring.
      - intros l _ Hl. unfold pin. rewrite Z.eqb_refl. cbn [orb]. replace (0 =? l)%Z with false by lia. ring. }
    destruct (Z.eq_dec i 0) as [->|Hne]; [rewrite Z0; ring|].
    replace (mvec n A d i) with (mvec n (pin A) d i); [rewrite S; ring|]. unfold mvec. apply zsum_ext. intros l Hl. unfold pin. replace (i =? 0)%Z with false by lia. cbn [orb].
    destruct (Z.eqb_spec l 0) as [->|]; [|reflexivity]. rewrite Z0. ring. }
  assert (Q : zsum (fun i => d i * mvec n A d i) 0 n = dt * sg * zsum (fun k => w k * (mvec n G d k * mvec n G d k)) 0 nv).
  { rewrite (zsum_ext _ (fun i => sumR (fun k => dt * sg * (d i * (w k * G k i * mvec n G d k))) (zrange 0 nv))).
    - unfold zsum. rewrite sumR_swap. rewrite <- sumR_scal. apply sumR_ext. intros k Hk.
      transitivity (dt * sg * (w k * mvec n G d k) * sumR (fun l => G k l * d l) (zrange 0 n)).
      + rewrite <- sumR_scal. apply sumR_ext. intros i Hi. ring.
      + change (sumR (fun l => G k l * d l) (zrange 0 n)) with (mvec n G d k). ring.
    - intros i Hi. rewrite (AG i Hi). unfold mvec at 1. unfold zsum. rewrite <- !sumR_scal. apply sumR_ext. intros k Hk. apply zrange_In in Hk. rewrite HA by auto. ring. }
  assert (Z0 : zsum (fun i => d i * mvec n A d i) 0 n = 0) by (apply sumR_zero; intros i Hi; apply zrange_In in Hi; auto).
  rewrite Z0 in Q. assert (Q' : zsum (fun k => w k * (mvec n G d k * mvec n G d k)) 0 nv = 0).
  { symmetry in Q. apply Rmult_integral in Q. destruct Q as [Q|Q]; [|exact Q]. apply Rmult_integral in Q. tauto. }
  assert (Nn : forall k, In k (zrange 0 nv) -> 0 <= w k * (mvec n G d k * mvec n G d k)).
  { intros k Hk. apply zrange_In in Hk. specialize (Hw k Hk). apply Rmult_le_pos; [lra|apply Rle_0_sqr]. }
  pose proof (sumR_nonneg_zero _ _ Nn Q' c (proj2 (zrange_In _ _ _) Hc)) as Zc. cbv beta in Zc. specialize (Hw c Hc).
  apply Rmult_integral in Zc. destruct Zc as [Zc|Zc]; [lra|]. assert (Eq : mvec n G d c = 0) by (apply Rmult_integral in Zc; tauto).
  unfold d in Eq. rewrite mvec_minus in Eq. lra.
Qed.

(** * Boundaries *)
Inductive same_op (m : mesh) : bop -> bop -> Prop :=
| so_eqs v1 v2 dt : V m v1 v2 -> same_op m (OpEqs v1 dt) (OpEqs v2 dt)
| so_vals v1 v2 : V m v1 v2 -> same_op m (OpVals v1) (OpVals v2).

Section One.
Variables (m : mesh) (D : dec) (P : nspar) (types : Z -> Z -> bctype) (values : Z -> Z -> R).
Hypotheses (Hset : mesh_setup m D) (Hb : bc_fits m types).
Let F : mfacts m D := setup_facts _ _ Hset.
Local Notation nv := (n_velocity m).
Local Notation np := (n_pressure m).

Lemma call_same h B o1 o2 : boundary_after m D types values h B -> same_op m o1 o2 -> bc_call m D o1 B = bc_call m D o2 B.
Proof.
  intros HB Ho. unfold bc_call.
  assert (E : mapM (fun r => run_boundary_op m D r (B r) o1) (zrange 0 (nranks D)) = mapM (fun r => run_boundary_op m D r (B r) o2) (zrange 0 (nranks D))).
  { apply mapM_same. intros r Hr. apply zrange_In in Hr. rewrite (after_pure m D types values h B r F Hb HB Hr).
    assert (One : forall o, run_boundary_op m D r (pure_state m D types values r h) o = Ok (pure_state m D types values r (h ++ [o]))).
    { intros o. pose proof (pure_run m D types values r h [o] F Hr) as Q. unfold run_boundary in Q. cbn [foldM] in Q.
      destruct (run_boundary_op m D r (pure_state m D types values r h) o); cbn [bind] in Q; auto. }
    rewrite !One. f_equal. unfold pure_state. apply map_ext_in. intros f Hf. apply zrange_In in Hf. apply map_ext_in. intros loc Hl. apply zrange_In in Hl.
    unfold sb_after. f_equal. apply map_ext_in. intros [s p] Hp. cbn [fst snd]. f_equal. rewrite !fold_left_app. cbn [fold_left].
    assert (Rg : (0 <= gi_tid (fold_left (pstep (bsb m D types values r f loc)) h p) < nv)%Z).
    { rewrite (geom_tid _ _ (psteps_geom _ _ _)). rewrite bsb_points in Hp. assert (Hg : In (s, p) (gl_points m D r f loc)) by (destruct (types f loc); auto; contradiction).
      destruct (gl_points_keys m D r f loc s) as [q ->]. { apply in_map_iff. exists (s, p). auto. }
      destruct (gl_points_info m D r f loc q p F Hf Hl Hr Hg) as (_ & E & N & _). destruct (velocity_row m D _ _ _ F N) as (Hf' & Hp' & Ei & _). rewrite Ei. now apply idx_range. }
    inversion Ho as [v1 v2 dt Hv|v1 v2 Hv]; subst; cbn [pstep]; now rewrite (Hv _ Rg). }
  now rewrite E.
Qed.

(** The right-hand side of the momentum system. *)
Definition quiet_conv (conv : boundary -> vec -> res vec) : Prop :=
  forall h B x1 x2 y1 y2, has_ics h -> boundary_after m D types values h B -> V m x1 x2 -> conv B x1 = Ok y1 -> conv B x2 = Ok y2 -> V m y1 y2.
Lemma agree_quiet conv : conv_agree m D D types values conv conv -> quiet_conv conv.
Proof.
  intros H h B x1 x2 y1 y2 Hi HB Hx E1 E2.
  assert (Sv : forall a b, V m a b <-> same_velocity m D D a b).
  { intros a b. split.
    - intros Hab i1 i2 f p X1 X2. destruct (velocity_row m D i1 f p F X1) as (Hf & Hp & -> & _). destruct (velocity_row m D i2 f p F X2) as (_ & _ & -> & _). apply Hab. now apply idx_range.
    - intros Hab i Hi'. destruct (velocity_ids m D i F Hi') as (f & p & X). exact (Hab _ _ _ _ X X). }
  apply Sv. refine (H h h B B x1 x2 y1 y2 HB HB _ Hi (proj1 (Sv _ _) Hx) E1 E2).
  assert (Rf : forall v, same_velocity m D D v v) by (intros v; apply Sv, se_refl).
  clear - Rf. induction h as [|o t IH]; constructor; auto. destruct o; constructor; apply Rf.
Qed.

Lemma rhs_same n O conv h s1 s2 r1 r2 t1 t2 : quiet_conv conv -> has_ics h -> boundary_after m D types values h (s_bc s1) ->
  s_bc s1 = s_bc s2 -> V m (s_U s1) (s_U s2) -> V m (mvec n (o_G O) (s_p s1)) (mvec n (o_G O) (s_p s2)) ->
  Forall2 (V m) (s_conv s1) (s_conv s2) -> Forall2 (V m) (s_diff s1) (s_diff s2) ->
  rhs_velocity n m D P O conv s1 = Ok (r1, t1) -> rhs_velocity n m D P O conv s2 = Ok (r2, t2) ->
  V m r1 r2 /\ s_bc t1 = s_bc t2 /\ Forall2 (V m) (s_conv t1) (s_conv t2) /\ Forall2 (V m) (s_diff t1) (s_diff t2).
Proof.
  intros Hcv Hi HB EB SU SG Sc Sd E1 E2. unfold rhs_velocity in *. cbv zeta in *. rewrite <- EB in E2.
  apply bind_ok_inv in E1. destruct E1 as (cs0 & Xc0 & E1). apply bind_ok_inv in E2. destruct E2 as (cs0' & Xc0' & E2). pose proof (DecProof.rotate_rel _ _ _ _ _ Sc Xc0 Xc0') as Fc0.
  apply bind_ok_inv in E1. destruct E1 as (cs & Xc & E1). apply bind_ok_inv in E2. destruct E2 as (cs' & Xc' & E2).
  assert (Fc : Forall2 (V m) cs cs').
  { rewrite <- (Forall2_lenZ _ _ _ Fc0) in Xc'. destruct (0 <? lenZ cs0)%Z; [|injection Xc as <-; injection Xc' as <-; exact Fc0].
    apply bind_ok_inv in Xc. destruct Xc as (c & Ec & Xc). apply bind_ok_inv in Xc'. destruct Xc' as (c' & Ec' & Xc').
    refine (DecProof.wr0_rel _ _ _ _ _ _ _ Fc0 _ Xc Xc'). apply se_scale. exact (Hcv h _ _ _ _ _ Hi HB SU Ec Ec'). }
  apply bind_ok_inv in E1. destruct E1 as (x1 & X1 & E1). apply bind_ok_inv in E2. destruct E2 as (x2 & X2 & E2).
  assert (V1 : V m x1 x2) by (refine (se_add _ _ _ _ _ _ _ _ Fc _ X1 X2); apply se_axpy; auto; now apply se_scale).
  apply bind_ok_inv in E1. destruct E1 as (ds0 & Xd0 & E1). apply bind_ok_inv in E2. destruct E2 as (ds0' & Xd0' & E2). pose proof (DecProof.rotate_rel _ _ _ _ _ Sd Xd0 Xd0') as Fd0.
  apply bind_ok_inv in E1. destruct E1 as (ds & Xd & E1). apply bind_ok_inv in E2. destruct E2 as (ds' & Xd' & E2).
  assert (Fd : Forall2 (V m) ds ds').
  { rewrite <- (Forall2_lenZ _ _ _ Fd0) in Xd'. destruct (0 <? lenZ ds0)%Z; [|injection Xd as <-; injection Xd' as <-; exact Fd0].
    apply bind_ok_inv in Xd. destruct Xd as (c & Ec & Xd). rewrite Ec in Xd'. cbn [bind] in Xd'.
    refine (DecProof.wr0_rel _ _ _ _ _ _ _ Fd0 _ Xd Xd'). apply se_scale. apply se_axpy; [now apply se_mvec|apply se_refl]. }
  apply bind_ok_inv in E1. destruct E1 as (y1 & Y1 & E1). apply bind_ok_inv in E2. destruct E2 as (y2 & Y2 & E2).
  pose proof (se_add _ _ _ _ _ _ _ _ Fd V1 Y1 Y2) as V2.
  rewrite <- (call_same h (s_bc s1) _ _ HB (so_eqs m _ _ (p_dt P) SU)) in E2.
  apply bind_ok_inv in E1. destruct E1 as (C1 & XB1 & E1). rewrite XB1 in E2. cbn [bind] in E2.
  apply bind_ok_inv in E1. destruct E1 as (c1 & Ec1 & E1). rewrite Ec1 in E2. cbn [bind] in E2.
  injection E1 as <- <-. injection E2 as <- <-. cbn [s_conv s_diff s_bc]. split; [|auto]. apply se_axpy; auto. apply se_refl.
Qed.

Lemma momentum_same h L x1 x2 b1 b2 : has_ics h -> periodic_min m 3 -> 0 <= p_dimp P * p_nu P -> 0 < p_dt P ->
  L = entry (op_log (op_of m D types values (lap_rows m D) h)) -> V m b1 b2 ->
  let A := mshift (mscale (- p_dimp P * p_nu P) L) (1 / p_dt P) in solves nv A x1 b1 -> solves nv A x2 b2 -> V m x1 x2.
Proof.
  intros Hi Hmin Hc Hdt -> Hbb A S1 S2 i Hii.
  assert (S : solves nv A (fun j => x1 j - x2 j) (fun _ => 0)).
  { intros k Hk. rewrite mvec_minus, (S1 k Hk), (S2 k Hk), (Hbb k Hk). ring. }
  assert (Bd : Rabs (x1 i - x2 i) <= p_dt P * 0).
  { apply (momentum_bound m D types values h (p_dimp P * p_nu P) (p_dt P) (fun j => x1 j - x2 j) (fun _ => 0) 0); auto; try (intros; rewrite Rabs_R0; lra).
    rewrite Ropp_mult_distr_l. exact S. }
  pose proof (Rabs_pos (x1 i - x2 i)). destruct (Req_dec (x1 i - x2 i) 0) as [|N]; [lra|]. apply Rabs_pos_lt in N. lra.
Qed.
End One.
