(** Proofs about the total momentum. *)
From Coq Require Import Lia ZifyBool String List.
Import ListNotations.
From Verif Require Import Prelude ZSum RSum TypesModel GridModel GridSpec GridProof MeshProof
  IndexModel IndexSpec IndexProof BoundaryModel BoundarySpec BoundaryProof OperatorModel OperatorSpec OperatorProof BStateProof LapProof DivProof GradProof
  AdjProof SymProof MatModel BnModel NSModel NSSpec NSProof NSPin NSTotal BnSpec BnProof LinAlg UniqueProof ConvModel ConvSpec ConvProof ConvValue ConvTotal ConvProps DeltaSpec DecSpec DecConv
  EnergySpec EnergyProof EnergyRun OperatorProps BodyModel DeltaModel IbpmModel IbpmSpec IbpmProof IbpmStep IbpmDec.
Local Open Scope R_scope.

(** * Integrals *)
Section Mom.
Variables (m : mesh) (D : dec) (types : Z -> Z -> bctype) (values : Z -> Z -> R) (f : Z).
Hypothesis Hset : mesh_setup m D.
Hypothesis Hb : bc_fits m types.
Hypothesis Hper : forall d, (0 <= d < m_dim m)%Z -> periodic_dir m d = true.
Hypothesis Hmin : periodic_min m 3.
Hypothesis Hf : (0 <= f < m_dim m)%Z.
Let F : mfacts m D := setup_facts _ _ Hset.
Local Notation nv := (n_velocity m).
Local Notation ell := (integral m D f).

(** The velocity that is 1 in direction f. *)
Definition ones (g : Z) : R := if (g =? f)%Z then 1 else 0.
Definition along : vec := fun id => match nthZ (packed_layout (m_dim m) D) id with Some (g, _) => ones g | None => 0 end.
Lemma ell_inner y : ell y = inner m D along y.
Proof.
  unfold integral, inner. apply zsum_ext. intros i Hi. unfold volume, along, ones. destruct (nthZ _ i) as [[g p]|]; [|ring].
  destruct (g =? f)%Z eqn:E; [|ring]. replace g with f by lia. ring.
Qed.
Lemma ell_ext y z : (forall i, (0 <= i < nv)%Z -> y i = z i) -> ell y = ell z.
Proof. intros H. rewrite !ell_inner. now apply inner_ext. Qed.
Lemma ell_lin a b y z : ell (fun i => a * y i + b * z i) = a * ell y + b * ell z.
Proof. rewrite !ell_inner. unfold inner, zsum. rewrite <- !sumR_scal, <- sumR_plus. apply sumR_ext. intros; ring. Qed.
Lemma ell_zero : ell (fun _ => 0) = 0.
Proof. rewrite ell_inner. unfold inner. apply sumR_zero. intros; ring. Qed.
Lemma ell_scale a y : ell (vscale a y) = a * ell y.
Proof. rewrite (ell_ext _ (fun i => a * y i + 0 * y i)) by (intros; unfold vscale; ring). rewrite ell_lin. ring. Qed.
Lemma ell_axpy y a x : ell (vaxpy y a x) = ell y + a * ell x.
Proof. rewrite (ell_ext _ (fun i => 1 * y i + a * x i)) by (intros; unfold vaxpy; ring). rewrite ell_lin. ring. Qed.
Lemma ell_weighted cs h : (forall v, In v h -> ell v = 0) -> ell (weighted cs h) = 0.
Proof.
  intros H. rewrite ell_inner. unfold inner, weighted, zsum.
  rewrite (sumR_ext _ (fun i => sumR (fun j => volume m D i * (along i * match nthZ cs j, nthZ h j with Some c, Some v => c * v i | _, _ => 0 end)) (zrange 0 (lenZ h))))
    by (intros; rewrite <- !sumR_scal; apply sumR_ext; intros; ring).
  rewrite sumR_swap. apply sumR_zero. intros j Hj. destruct (nthZ cs j) as [c|]; [|apply sumR_zero; intros; ring].
  destruct (nthZ h j) as [v|] eqn:E; [|apply sumR_zero; intros; ring]. apply nthZ_In in E. specialize (H v E). rewrite ell_inner in H. unfold inner, zsum in H.
  rewrite (sumR_ext _ (fun i => c * (volume m D i * (along i * v i)))) by (intros; ring). rewrite sumR_scal, H. ring.
Qed.

(** * The operators *)
Lemma undriven_periodic : undriven m types values.
Proof.
  intros g loc Hg Hl. destruct (Hb g loc Hg Hl) as [_ X].
  assert (E : types g loc = PERIODIC).
  { apply X, Hper. unfold loc_dir. split; [apply Z.div_pos; lia|apply Z.div_lt_upper_bound; lia]. }
  rewrite E. split; [discriminate|congruence].
Qed.
Lemma no_neumann_periodic : no_normal_neumann m types.
Proof.
  unfold no_normal_neumann. intros g Hg.
  assert (E : forall loc, (0 <= loc < m_dim m * 2)%Z -> types g loc = PERIODIC).
  { intros loc Hl. destruct (Hb g loc Hg Hl) as [_ X]. apply X, Hper. unfold loc_dir. split; [apply Z.div_pos; lia|apply Z.div_lt_upper_bound; lia]. }
  rewrite !E by lia. split; discriminate.
Qed.
Lemma image_all g q : (0 <= g < m_dim m)%Z -> (forall e, (m_dim m <= e < 3)%Z -> pc q e = 0%Z) -> has_image (m_n m g) (periodic_dir m) q = true.
Proof.
  intros Hg Hq. apply has_image_pc. intros e He Ho. destruct (Z_lt_dec e (m_dim m)) as [L|L]; [apply Hper; lia|].
  exfalso. pose proof (mf_dim _ _ F) as Hd. assert (e = 2 /\ m_dim m = 2)%Z as [-> H2] by lia.
  destruct (mf_flat _ _ F g (or_introl Hg) H2) as (N2 & _). unfold outside in Ho. rewrite N2, Hq in Ho by lia. cbn in Ho. discriminate.
Qed.

Variable h0 : list bop.
Hypothesis Hics : has_ics h0.
Let L : mat := entry (op_log (op_of m D types values (lap_rows m D) h0)).

Lemma lap_along i : (0 <= i < nv)%Z -> mvec nv L along i = 0.
Proof.
  intros Hi. destruct (velocity_ids m D i F Hi) as (g & p & E). destruct (velocity_row m D i g p F E) as (Hg & Hp & Ei & _).
  change (mat_mult (op_log (op_of m D types values (lap_rows m D) h0)) (n_velocity m) along i = 0). rewrite Ei.
  rewrite (lap_row m D types values h0 g p along (fun _ => ones g)); auto.
  - apply sumR_zero. intros d Hd. apply zrange_In in Hd. unfold hneigh.
    assert (X : forall s, has_image (m_n m g) (periodic_dir m) (shift p d s) = true).
    { intros s. apply image_all; auto. intros e He. pose proof (mf_dim _ _ F). rewrite pc_shift2 by lia. replace (e =? d)%Z with false by lia.
      rewrite interior_pc in Hp. specialize (Hp e ltac:(lia)). assert (e = 2 /\ m_dim m = 2)%Z as [-> H2] by lia.
      destruct (mf_flat _ _ F g (or_introl Hg) H2) as (N2 & _). lia. }
    rewrite !X. ring.
  - intros q Hq. destruct (idx_spec m D g q F Hg Hq) as [_ N]. unfold along. now rewrite N.
Qed.
Lemma ell_lap z : ell (mvec nv L z) = 0.
Proof.
  rewrite ell_inner. unfold inner, mvec, zsum.
  rewrite (sumR_ext _ (fun i => sumR (fun j => z j * (volume m D j * (L j i * along i))) (zrange 0 nv))).
  - rewrite sumR_swap. apply sumR_zero. intros j Hj. apply zrange_In in Hj. rewrite !sumR_scal.
    change (sumR (fun i => L j i * along i) (zrange 0 nv)) with (mvec nv L along j). rewrite lap_along by auto. ring.
  - intros i Hi. apply zrange_In in Hi. rewrite <- !sumR_scal. apply sumR_ext. intros j Hj. apply zrange_In in Hj.
    pose proof (weighted_symmetric m D Hset types values h0 Hb Hics Hmin i j Hi Hj) as W. fold L in W. 
    transitivity (along i * z j * (volume m D i * L i j)); [ring|]. rewrite W. ring.
Qed.
Lemma div_along r : (0 <= r < n_pressure m)%Z -> mvec nv (entry (op_log (op_of m D types values (div_rows m D false) h0))) along r = 0.
Proof.
  intros Hr. pose proof (min_three_two m Hmin) as Hm2.
  pose proof (pure_after m D types values h0 F Hb) as HB0. pose proof (pure_after m D types values (h0 ++ [OpVals along]) F Hb) as HB2.
  assert (HX : extends m D (fun r => pure_state m D types values r (h0 ++ [OpVals along])) along (fun g _ => ones g)).
  { apply (uniform_extends m D types values ones h0 (OpVals along) _ along F Hb); auto.
    - intros g loc Hg Hl Hp. rewrite Hper in Hp; [discriminate|]. unfold loc_dir. split; [apply Z.div_pos; lia|apply Z.div_lt_upper_bound; lia].
    - intros id g p Hid. unfold along. now rewrite Hid.
    - destruct Hics as [v Hv]. exists v. apply in_app_iff. now left. }
  assert (HB1 : boundary_after m D types values (h0 ++ []) (fun r => pure_state m D types values r h0)) by (rewrite app_nil_r; exact HB0).
  destruct (divergence_is_net_flux m D types values false h0 [] along _ _ _ _ Hset Hb Hics Hm2 HB0 HB1 HB2 HX) as (op & c & Eo & Ec & N).
  rewrite (createDivergence_ok m D types values false h0 _ F Hb HB0) in Eo. injection Eo as <-.
  assert (exists p, nthZ (field_layout D 3) r = Some p) as [p Hp].
  { destruct (pressure_ids m D r F Hr) as (p & E). eauto. }
  specialize (N r p Hp). rewrite (undriven_correction m D types values F Hb undriven_periodic _ h0 [] _ _ Hics HB1 Ec) in N.
  unfold mat_mult in N. unfold mvec. rewrite Rplus_0_r in N. rewrite N. unfold net_flux. apply sumR_zero. intros; ring.
Qed.
Lemma ell_grad y : ell (mvec (n_pressure m) (entry (asm_ins (nranks D) (grad_rows m D false))) y) = 0.
Proof.
  rewrite ell_inner. refine (adjoint_orthogonal nv (n_pressure m) (volume m D) _ _ along _ div_along y).
  intros r c Hr Hc. rewrite (dg_entry m D types values false h0 F Hb Hics (min_three_two m Hmin) no_neumann_periodic r c Hr Hc).
  now rewrite (weight_volume m D Hset c Hc).
Qed.

(** The approximate inverse of the implicit operator, of any order. *)
Lemma power_lap z t : ell (mvec nv (bn_power nv L L t) z) = 0.
Proof.
  unfold bn_power. generalize (zrange 2 t). intros ts.
  assert (X : forall (l : list Z) A, (forall z, ell (mvec nv A z) = 0) -> ell (mvec nv (fold_left (fun right _ => mmul nv L right) l A) z) = 0).
  { induction l as [|a l IH]; intros A HA; [apply HA|]. cbn [fold_left]. apply IH. intros z0.
    rewrite (ell_ext _ (mvec nv L (mvec nv A z0))) by (intros; apply mvec_mmul). apply ell_lap. }
  apply X. intros. apply ell_lap.
Qed.
Lemma ell_bn dt c n BN z : createBnHead nv L dt c n = Ok BN -> ell (mvec nv BN z) = dt * ell z.
Proof.
  unfold createBnHead. destruct (n <? 1)%Z; [discriminate|].
  assert (B0 : ell (mvec nv (mshift mzero dt) z) = dt * ell z).
  { rewrite <- (ell_scale dt z). apply ell_ext. intros i Hi. unfold vscale.
    rewrite (mvec_ext nv _ (mshift (mscale 0 mzero) dt) z z i); auto.
    - rewrite mvec_shift by auto. ring.
    - intros l _. unfold mshift, mscale, mzero. ring. }
  destruct (n =? 1)%Z; intros E; injection E as <-; [exact B0|].
  revert B0. generalize (mshift mzero dt). generalize (zrange 2 (n + 1)).
  induction l as [|t l IH]; intros A HA; [exact HA|]. cbn [fold_left]. apply IH.
  rewrite (ell_ext _ (vaxpy (mvec nv A z) (bn_coeff dt c t) (mvec nv (bn_power nv L L t) z))).
  - rewrite ell_axpy, power_lap, HA. ring.
  - intros i Hi. unfold vaxpy, mvec, zsum, maxpy. rewrite <- sumR_scal, <- sumR_plus. apply sumR_ext. intros; ring.
Qed.

(** * One step *)
Definition quiet (s : nsstate) : Prop := (forall v, In v (s_conv s) -> ell v = 0) /\ (forall v, In v (s_diff s) -> ell v = 0).

Lemma quiet_slots (h h' : list vec) newest :
  (do l <- rotate h; if (0 <? lenZ l)%Z then do c <- newest; wr l 0 c else Ok l) = Ok h' ->
  (forall c, newest = Ok c -> ell c = 0) -> (forall v, In v h -> ell v = 0) -> forall v, In v h' -> ell v = 0.
Proof.
  intros E Hn Hh v Hv. destruct (slots_update _ _ _ E) as (Ln & Hold & Hnew).
  apply In_nthZ in Hv. destruct Hv as (i & _ & Ei). pose proof (nthZ_Some_range _ _ _ Ei) as Ri.
  destruct (Z.eq_dec i 0) as [->|Hne].
  - destruct (Hnew ltac:(lia)) as (c & Ec & Ec'). rewrite Ei in Ec'. injection Ec' as ->. now apply Hn.
  - rewrite Hold in Ei by lia. apply nthZ_In in Ei. now apply Hh.
Qed.
(** What the right-hand side of the velocity system integrates to. *)
Lemma ell_rhs n P O h1 s rhs s1 :
  o_L O = op_of m D types values (lap_rows m D) h0 ->
  boundary_after m D types values (h0 ++ h1) (s_bc s) -> quiet s ->
  rhs_velocity n m D P O (convection m D) s = Ok (rhs, s1) ->
  quiet s1 /\ ell rhs = ell (s_U s) / p_dt P - ell (mvec n (o_G O) (s_p s)).
Proof.
  intros EL HB Q E. destruct (rhsvel_slots _ _ _ _ _ _ _ _ _ E) as [S1 S2].
  assert (Q1 : quiet s1).
  { split.
    - refine (quiet_slots _ _ _ S1 _ (proj1 Q)). intros c Ec. apply bind_ok_inv in Ec. destruct Ec as (c0 & Ec & X). injection X as <-.
      rewrite ell_scale. destruct (convection_inv _ _ _ _ _ Ec) as (C' & E').
      rewrite (conv_conservative_periodic m D types values _ _ _ _ _ _ f Hset Hb (cs_new _ _ _ _) HB E' Hf Hper). ring.
    - refine (quiet_slots _ _ _ S2 _ (proj2 Q)). intros c Ec. apply bind_ok_inv in Ec. destruct Ec as (c0 & Ec & X). injection X as <-.
      rewrite ell_scale, ell_axpy, EL. change (ell (mvec nv (entry (op_log (op_of m D types values (lap_rows m D) h0))) (s_U s))) with (ell (mvec nv L (s_U s))). rewrite ell_lap. rewrite EL in Ec.
      rewrite (ell_ext c0 (fun _ => 0)) by (intros; exact (undriven_correction m D types values F Hb undriven_periodic _ _ _ _ _ Hics HB Ec i)).
      rewrite ell_zero. ring. }
  split; [exact Q1|]. destruct (rhsvel_inv _ _ _ _ _ _ _ _ _ E) as (XB & _).
  pose proof (bc_call_inv m D types values _ _ _ _ F Hb HB XB) as HB1. rewrite <- app_assoc in HB1.
  destruct (rhs_value _ _ _ _ _ _ _ _ _ E) as (c & Ec & V). rewrite EL in Ec.
  pose proof (undriven_correction m D types values F Hb undriven_periodic _ _ _ _ _ Hics HB1 Ec) as C0.
  rewrite (ell_ext rhs (vaxpy (vaxpy (vaxpy (vscale (/ p_dt P) (s_U s)) (-1) (mvec n (o_G O) (s_p s))) 1 (weighted (p_cexp P) (s_conv s1))) 1 (weighted (p_dexp P) (s_diff s1)))).
  - rewrite !ell_axpy, ell_scale, !ell_weighted by apply Q1. unfold Rdiv. ring.
  - intros i _. rewrite V, C0. unfold vaxpy, vscale, Rdiv. ring.
Qed.
(** What a solution of the velocity system integrates to. *)
Lemma ell_solve P x b : p_dt P <> 0 -> solves nv (mshift (mscale (- p_dimp P * p_nu P) L) (1 / p_dt P)) x b -> ell x = p_dt P * ell b.
Proof.
  intros Hdt H.
  assert (E : ell b = ell (vaxpy (vscale (1 / p_dt P) x) (- p_dimp P * p_nu P) (mvec nv L x))).
  { apply ell_ext. intros i Hi. rewrite <- (H i Hi). rewrite mvec_shift by auto. unfold vaxpy, vscale. ring. }
  rewrite E, ell_axpy, ell_scale, ell_lap. field. exact Hdt.
Qed.

(** The velocity system has a solution, which an exact solver returns. *)
Lemma velocity_solved P vs g b : 0 < p_dt P -> 0 <= p_dimp P * p_nu P ->
  exact_solver nv (mshift (mscale (- p_dimp P * p_nu P) L) (1 / p_dt P)) vs ->
  solves nv (mshift (mscale (- p_dimp P * p_nu P) L) (1 / p_dt P)) (vs g b) b.
Proof.
  intros Hdt Hc Hv. refine (Hv g b _).
  destruct (injective_solvable nv (mshift (mscale (- p_dimp P * p_nu P) L) (1 / p_dt P)) (nv_nonneg m D Hset)) with (b := b) as (x & Hx); [|exists x; exact Hx].
  intros x Hx i Hi. assert (Bd : Rabs (x i) <= p_dt P * 0).
  { apply (momentum_bound m D types values h0 (p_dimp P * p_nu P) (p_dt P) x (fun _ => 0) 0); auto; [|intros; rewrite Rabs_R0; lra].
    rewrite Ropp_mult_distr_l. exact Hx. }
  pose proof (Rabs_pos (x i)). destruct (Req_dec (x i) 0) as [|N]; auto. apply Rabs_pos_lt in N. lra.
Qed.

(** A step of the Navier-Stokes solver and of the coupled one. *)
Lemma step_momentum n P O BN h1 rp vs ps s s2 : 0 < p_dt P -> 0 <= p_dimp P * p_nu P ->
  o_L O = op_of m D types values (lap_rows m D) h0 -> o_A O = mshift (mscale (- p_dimp P * p_nu P) L) (1 / p_dt P) ->
  createBnHead nv L (p_dt P) (p_dimp P * p_nu P) (p_bn P) = Ok BN -> o_BNG O = mmul nv BN (o_G O) ->
  boundary_after m D types values (h0 ++ h1) (s_bc s) -> quiet s -> exact_solver nv (o_A O) vs ->
  advance_with n m D P O (rhs_velocity n m D P O (convection m D)) rp vs ps s = Ok s2 ->
  quiet s2 /\ ell (s_U s2) = ell (s_U s) - p_dt P * ell (mvec n (o_G O) (s_p s2)).
Proof.
  intros Hdt Hc EL EA EB EG HB Q Hv Ha.
  destruct (advance_with_inv _ _ _ _ _ _ _ _ _ _ _ Ha) as (rhs1 & s1 & b & X1 & X2 & XB1 & XdP & XU & Xp & XB2 & Xt & Xi & Xc & Xd).
  destruct (ell_rhs n P O h1 (begun P s) rhs1 s1 EL HB Q X1) as [Q1 Er]. cbn [begun s_U s_p] in Er.
  split; [unfold quiet; rewrite Xc, Xd; exact Q1|]. rewrite EA in Hv.
  pose proof (ell_solve P _ _ ltac:(lra) (velocity_solved P vs (s_U s) rhs1 Hdt Hc Hv)) as Es.
  rewrite XU, ell_axpy, Es, Er, EG, Xp.
  rewrite (ell_ext (mvec n (mmul nv BN (o_G O)) _) (mvec nv BN (mvec n (o_G O) (ps (s_dP s) b)))) by (intros; apply mvec_mmul).
  rewrite (ell_bn _ _ _ _ _ EB).
  rewrite (ell_ext (mvec n (o_G O) (vaxpy (s_p s) 1 (ps (s_dP s) b))) (vaxpy (mvec n (o_G O) (s_p s)) 1 (mvec n (o_G O) (ps (s_dP s) b)))) by (intros; apply mvec_axpy).
  rewrite ell_axpy. field. lra.
Qed.
(** A step of the decoupled solvers. *)
Lemma dec_momentum P O X BN nf h1 rhs_f vs ps fs x x2 : 0 < p_dt P -> 0 <= p_dimp P * p_nu P ->
  o_L O = op_of m D types values (lap_rows m D) h0 -> o_A O = mshift (mscale (- p_dimp P * p_nu P) L) (1 / p_dt P) ->
  createBnHead nv L (p_dt P) (p_dimp P * p_nu P) (p_bn P) = Ok BN -> o_BNG O = mmul nv BN (o_G O) -> di_BNH X = mmul nv BN (di_H X) ->
  o_G O = entry (asm_ins (nranks D) (grad_rows m D false)) ->
  boundary_after m D types values (h0 ++ h1) (s_bc (x_ns x)) -> quiet (x_ns x) -> exact_solver nv (o_A O) vs ->
  d_advance m D P O X nf (convection m D) rhs_f vs ps fs x = Ok x2 ->
  quiet (x_ns x2) /\ ell (s_U (x_ns x2)) = ell (s_U (x_ns x)) + p_dt P * ell (mvec nf (di_H X) (x_f x2)).
Proof.
  intros Hdt Hc EL EA EB EG EH Eg HB Q Hv Ha.
  destruct (d_advance_inv _ _ _ _ _ _ _ _ _ _ _ _ _ Ha) as (rhs0 & s1 & b & X1 & Xdf & _ & XB1 & _ & XU & _ & Xf & _ & _ & _ & Xc & Xd). cbv zeta in *.
  destruct (ell_rhs (n_pressure m) P O h1 (begun P (x_ns x)) rhs0 s1 EL HB Q X1) as [Q1 Er]. cbn [begun s_U s_p] in Er. rewrite Eg, ell_grad in Er.
  split; [unfold quiet; rewrite Xc, Xd; exact Q1|]. rewrite EA in Hv.
  pose proof (ell_solve P _ _ ltac:(lra) (velocity_solved P vs (s_U (x_ns x)) (vaxpy rhs0 1 (mvec nf (di_H X) (x_f x))) Hdt Hc Hv)) as Es.
  rewrite XU, !ell_axpy, Es, EG, EH, Xf.
  rewrite (ell_ext (mvec nf (mmul nv BN (di_H X)) _) (mvec nv BN (mvec nf (di_H X) (x_df x2)))) by (intros; apply mvec_mmul).
  rewrite (ell_ext (mvec _ (mmul nv BN (o_G O)) _) (mvec nv BN (mvec (n_pressure m) (o_G O) (s_dP (x_ns x2))))) by (intros; apply mvec_mmul).
  rewrite !(ell_bn _ _ _ _ _ EB), Eg, ell_grad.
  rewrite (ell_ext (mvec nf (di_H X) (vaxpy (x_f x) 1 (x_df x2))) (vaxpy (mvec nf (di_H X) (x_f x)) 1 (mvec nf (di_H X) (x_df x2)))) by (intros; apply mvec_axpy).
  rewrite !ell_axpy, Er. field. lra.
Qed.
End Mom.
