(** Proofs about the kinetic energy. *)
From Coq Require Import Lia ZifyBool.
From Verif Require Import Prelude ZSum RSum TypesModel GridModel GridSpec GridProof MeshProof
  IndexModel IndexSpec IndexProof BoundaryModel BoundarySpec BoundaryProof OperatorModel OperatorSpec OperatorProof BStateProof LapProof DivProof GradProof
  AdjProof SymProof MatModel BnModel NSModel NSSpec NSProof NSPin LinAlg UniqueProof ConvSpec EnergySpec.
Local Open Scope R_scope.

(** * Quadratic forms *)
(** A symmetric matrix with non-negative entries off the diagonal and
    non-positive row sums is negative semi-definite. *)
Lemma dominant_form n (S : mat) x :
  (forall i j, (0 <= i < n)%Z -> (0 <= j < n)%Z -> S i j = S j i) ->
  2 * zsum (fun i => x i * mvec n S x i) 0 n
  = 2 * zsum (fun i => zsum (S i) 0 n * (x i * x i)) 0 n
    - zsum (fun i => zsum (fun j => S i j * ((x i - x j) * (x i - x j))) 0 n) 0 n.
Proof.
  intros Sym.
  assert (A : zsum (fun i => zsum (fun j => S i j * (x j * x j)) 0 n) 0 n = zsum (fun i => zsum (S i) 0 n * (x i * x i)) 0 n).
  { unfold zsum. rewrite sumR_swap. apply sumR_ext. intros j Hj. apply zrange_In in Hj. rewrite <- sumR_scal_r. apply sumR_ext. intros i Hi. apply zrange_In in Hi. now rewrite (Sym i j). }
  assert (B : zsum (fun i => zsum (fun j => S i j * ((x i - x j) * (x i - x j))) 0 n) 0 n
    = zsum (fun i => zsum (S i) 0 n * (x i * x i)) 0 n + zsum (fun i => zsum (fun j => S i j * (x j * x j)) 0 n) 0 n - 2 * zsum (fun i => x i * mvec n S x i) 0 n).
  { unfold zsum, mvec, zsum. rewrite <- sumR_plus. rewrite <- sumR_scal, <- sumR_minus. apply sumR_ext. intros i _.
    rewrite <- sumR_scal_r. rewrite <- !sumR_scal. rewrite <- sumR_plus, <- sumR_minus. apply sumR_ext. intros j _. ring. }
  rewrite B, A. lra.
Qed.
Lemma dominant_negative n (S : mat) x :
  (forall i j, (0 <= i < n)%Z -> (0 <= j < n)%Z -> S i j = S j i) ->
  (forall i j, (0 <= i < n)%Z -> (0 <= j < n)%Z -> i <> j -> 0 <= S i j) ->
  (forall i, (0 <= i < n)%Z -> zsum (S i) 0 n <= 0) ->
  zsum (fun i => x i * mvec n S x i) 0 n <= 0.
Proof.
  intros Sym Off Row. pose proof (dominant_form n S x Sym) as E.
  assert (A : 0 <= zsum (fun i => - (zsum (S i) 0 n * (x i * x i))) 0 n).
  { apply sumR_nonneg. intros i Hi. apply zrange_In in Hi. pose proof (Row i Hi). pose proof (Rle_0_sqr (x i)). unfold Rsqr in *. nra. }
  assert (B : 0 <= zsum (fun i => zsum (fun j => S i j * ((x i - x j) * (x i - x j))) 0 n) 0 n).
  { apply sumR_nonneg. intros i Hi. apply zrange_In in Hi. apply sumR_nonneg. intros j Hj. apply zrange_In in Hj.
    destruct (Z.eq_dec i j) as [->|Hne]; [rewrite Rminus_diag_eq by reflexivity; lra|]. apply Rmult_le_pos; [auto|apply Rle_0_sqr]. }
  unfold zsum in A at 1. rewrite sumR_opp in A. fold (zsum (fun i => zsum (S i) 0 n * (x i * x i)) 0 n) in A. lra.
Qed.

(** * Volumes *)
Section Ops.
Variables (m : mesh) (D : dec).
Hypothesis Hset : mesh_setup m D.
Let F : mfacts m D := setup_facts _ _ Hset.
Let nv := n_velocity m.

Lemma point_volume_pos f p : (0 <= f < m_dim m)%Z -> interior (m_n m f) p -> 0 < point_volume m f p.
Proof.
  intros Hf Hp. pose proof (mf_dim _ _ F) as Hdim. rewrite interior_pc in Hp. unfold point_volume.
  assert (W : forall d, (0 <= d < m_dim m)%Z -> 0 < wid m f d (pc p d)).
  { intros d Hd. specialize (Hp d ltac:(lia)). now destruct (mf_wid _ _ F f d (pc p d) Hf Hd ltac:(lia)). }
  apply Rmult_lt_0_compat; [apply Rmult_lt_0_compat; apply W; lia|]. destruct (Z.eqb_spec (m_dim m) 3); [apply W; lia|lra].
Qed.
Lemma volume_at id f p : nthZ (packed_layout (m_dim m) D) id = Some (f, p) -> volume m D id = point_volume m f p.
Proof. intros E. unfold volume. now rewrite E. Qed.
Lemma volume_pos id : (0 <= id < nv)%Z -> 0 < volume m D id.
Proof.
  intros H. destruct (velocity_ids m D id F H) as (f & p & E). rewrite (volume_at _ _ _ E).
  destruct (velocity_row m D id f p F E) as (Hf & Hp & _). now apply point_volume_pos.
Qed.
Lemma volume_area f p : (0 <= f < m_dim m)%Z -> interior (m_n m f) p ->
  point_volume m f p = face_area m false f p * wid m f f (pc p f).
Proof.
  intros Hf Hp. pose proof (mf_dim _ _ F) as Hdim. unfold point_volume, face_area. rewrite interior_pc in Hp.
  destruct Hdim as [H2|H3].
  - destruct (mf_flat _ _ F f (or_introl Hf) H2) as (N2 & _ & W2). pose proof (Hp 2%Z ltac:(lia)) as P2. rewrite N2 in P2.
    assert (E2 : pc p 2 = 0%Z) by lia. rewrite H2. cbn [Z.eqb Pos.eqb]. assert (f = 0 \/ f = 1)%Z as [->| ->] by lia; cbn [perp0 perp1 Z.eqb Pos.eqb]; rewrite E2, W2; ring.
  - rewrite H3. cbn [Z.eqb Pos.eqb]. assert (f = 0 \/ f = 1 \/ f = 2)%Z as [->|[->| ->]] by lia; cbn [perp0 perp1 Z.eqb Pos.eqb]; ring.
Qed.

(** * Viscosity *)
Section Lap.
Variables (types : Z -> Z -> bctype) (values : Z -> Z -> R) (h0 : list bop).
Hypothesis Hb : bc_fits m types.
Hypothesis Hics : has_ics h0.
Hypothesis Hmin : periodic_min m 3.
Let L : mat := entry (op_log (op_of m D types values (lap_rows m D) h0)).

Lemma weighted_row_sum i : (0 <= i < nv)%Z -> zsum (fun j => volume m D i * L i j) 0 nv <= 0.
Proof.
  intros Hi. destruct (velocity_ids m D i F Hi) as (f & p & E). pose proof (volume_pos i Hi) as V.
  destruct (velocity_row m D i f p F E) as (Hf & Hp & Ei & _).
  unfold zsum. rewrite sumR_scal. fold (zsum (L i) 0 nv).
  assert (Z0 : zsum (L i) 0 nv <= 0); [|rewrite <- (Rmult_0_r (volume m D i)); apply Rmult_le_compat_l; [lra|exact Z0]].
  rewrite (zsum_ext (L i) (fun j => L i j * 1)) by (intros; ring).
  change (mat_mult (op_log (op_of m D types values (lap_rows m D) h0)) (n_velocity m) (fun _ => 1) i <= 0). rewrite Ei.
  rewrite (lap_row m D types values h0 f p (fun _ => 1) (fun _ => 1)) by auto.
  assert (X : 0 <= zsum (fun d => - (lapm m f p d * (hneigh m types f (fun _ => 1) p d (-1) - 1) + lapp m f p d * (hneigh m types f (fun _ => 1) p d 1 - 1))) 0 (m_dim m)).
  { apply sumR_nonneg. intros d Hd. apply zrange_In in Hd. destruct (lap_pos m D f p d F Hf Hd Hp) as [A B].
    assert (N : forall s, hneigh m types f (fun _ => 1) p d s <= 1).
    { intros s. unfold hneigh. destruct (has_image _ _ _); [lra|]. pose proof (a0_bound types f (2 * d + (if (s =? 1)%Z then 1 else 0))). lra. }
    pose proof (N 1%Z). pose proof (N (-1)%Z). nra. }
  unfold zsum in X. rewrite sumR_opp in X. apply Ropp_le_cancel. rewrite Ropp_0. exact X.
Qed.
Lemma weighted_symmetric i j : (0 <= i < nv)%Z -> (0 <= j < nv)%Z -> volume m D i * L i j = volume m D j * L j i.
Proof.
  intros Hi Hj. destruct (velocity_ids m D i F Hi) as (f & p & E). destruct (velocity_ids m D j F Hj) as (g & q & E').
  rewrite (volume_at _ _ _ E), (volume_at _ _ _ E'). destruct (velocity_row m D i f p F E) as (Hf & Hp & -> & _). destruct (velocity_row m D j g q F E') as (Hg & Hq & -> & _).
  now apply lap_symmetric.
Qed.
Lemma lap_off i j : (0 <= i < nv)%Z -> (0 <= j < nv)%Z -> i <> j -> 0 <= L i j.
Proof.
  intros Hi Hj Hne. destruct (velocity_ids m D i F Hi) as (f & p & E). destruct (velocity_ids m D j F Hj) as (g & q & E').
  destruct (velocity_row m D i f p F E) as (Hf & Hp & Ei & _). destruct (velocity_row m D j g q F E') as (Hg & Hq & Ej & _).
  unfold L. rewrite Ei, Ej. rewrite lap_entry by (auto; intros X; apply Hne; rewrite Ei, Ej; congruence).
  destruct (f =? g)%Z; [|lra]. apply sumR_nonneg. intros d Hd. apply zrange_In in Hd. destruct (lap_pos m D f p d F Hf Hd Hp) as [A B]. unfold coef. cbn [Z.eqb Pos.eqb].
  assert (I : forall b, 0 <= indicator b) by (intros [|]; cbn; lra). pose proof (I (nbr m f p d (-1) q)). pose proof (I (nbr m f p d 1 q)). nra.
Qed.
Lemma inner_lap x : inner m D x (mvec nv L x) = zsum (fun i => x i * mvec nv (fun i j => volume m D i * L i j) x i) 0 nv.
Proof.
  unfold inner. apply zsum_ext. intros i _. unfold mvec, zsum. rewrite (sumR_ext (fun l => volume m D i * L i l * x l) (fun l => volume m D i * (L i l * x l))) by (intros; ring).
  rewrite sumR_scal. ring.
Qed.
Lemma lap_dissipates x : inner m D x (mvec nv L x) <= 0.
Proof.
  rewrite inner_lap. apply dominant_negative.
  - intros. now apply weighted_symmetric.
  - intros i j Hi Hj Hne. pose proof (volume_pos i Hi). pose proof (lap_off i j Hi Hj Hne). nra.
  - intros. now apply weighted_row_sum.
Qed.
End Lap.

(** * Pressure *)
Lemma weight_volume c : (0 <= c < nv)%Z -> dg_weight m D false c = volume m D c.
Proof.
  intros Hc. destruct (velocity_ids m D c F Hc) as (f & q & E). unfold dg_weight, volume. rewrite E.
  destruct (velocity_row m D c f q F E) as (Hf & Hq & _). now rewrite volume_area.
Qed.
Lemma inner_ext x x' y y' : (forall i, (0 <= i < nv)%Z -> x i = x' i) -> (forall i, (0 <= i < nv)%Z -> y i = y' i) -> inner m D x y = inner m D x' y'.
Proof. intros A B. unfold inner. apply zsum_ext. intros i Hi. now rewrite A, B. Qed.
Lemma inner_nonneg x : 0 <= inner m D x x.
Proof. apply sumR_nonneg. intros i Hi. apply zrange_In in Hi. pose proof (volume_pos i Hi). pose proof (Rle_0_sqr (x i)). unfold Rsqr in *. nra. Qed.
End Ops.

(** * Adjoint operators *)
(** Rows minus the weighted transposes of columns: a vector all rows annihilate
    is orthogonal to all columns. *)
Lemma adjoint_orthogonal nv n (w : Z -> R) (G Dm : mat) u :
  (forall r c, (0 <= r < n)%Z -> (0 <= c < nv)%Z -> Dm r c = - (w c * G c r)) ->
  (forall r, (0 <= r < n)%Z -> mvec nv Dm u r = 0) ->
  forall y, zsum (fun c => w c * (u c * mvec n G y c)) 0 nv = 0.
Proof.
  intros HA HU y.
  assert (E : zsum (fun c => w c * (u c * mvec n G y c)) 0 nv = - zsum (fun r => y r * mvec nv Dm u r) 0 n).
  { unfold mvec, zsum. rewrite <- sumR_opp.
    rewrite (sumR_ext _ (fun c => sumR (fun r => w c * u c * G c r * y r) (zrange 0 n))) by (intros; rewrite <- !sumR_scal; apply sumR_ext; intros; ring).
    rewrite sumR_swap. apply sumR_ext. intros r Hr. apply zrange_In in Hr. rewrite <- sumR_scal, <- sumR_opp. apply sumR_ext. intros c Hc. apply zrange_In in Hc.
    rewrite HA by auto. ring. }
  rewrite E. unfold zsum. rewrite sumR_zero; [ring|]. intros r Hr. apply zrange_In in Hr. rewrite HU by auto. ring.
Qed.

(** * One step *)
Lemma budget nv n (w : Z -> R) (G Dm L : mat) dt c (u u1 lam dl e : vec) : dt <> 0 ->
  (forall r k, (0 <= r < n)%Z -> (0 <= k < nv)%Z -> Dm r k = - (w k * G k r)) ->
  (forall i, (0 <= i < nv)%Z -> u1 i / dt - c * mvec nv L u1 i = u i / dt - mvec n G lam i + e i) ->
  let u2 := fun i => u1 i - dt * mvec n G dl i in
  (forall r, (0 <= r < n)%Z -> mvec nv Dm u2 r = 0) ->
  let ip := fun x y : vec => zsum (fun i => w i * (x i * y i)) 0 nv in
  ip u2 u2 + dt * dt * ip (mvec n G (vaxpy lam 1 dl)) (mvec n G (vaxpy lam 1 dl))
  = ip u u + dt * dt * ip (mvec n G lam) (mvec n G lam)
    - ip (fun i => u1 i - u i) (fun i => u1 i - u i) + 2 * dt * (c * ip u1 (mvec nv L u1) + ip u1 e).
Proof.
  intros Hdt HA HE u2 HD ip. pose proof (adjoint_orthogonal nv n w G Dm u2 HA HD (vaxpy lam 1 dl)) as O. unfold ip.
  assert (S : zsum (fun i => w i * (u2 i * u2 i) + dt * dt * (w i * (mvec n G (vaxpy lam 1 dl) i * mvec n G (vaxpy lam 1 dl) i))) 0 nv
    = zsum (fun i => w i * (u i * u i) + dt * dt * (w i * (mvec n G lam i * mvec n G lam i)) - w i * ((u1 i - u i) * (u1 i - u i))
              + 2 * dt * (c * (w i * (u1 i * mvec nv L u1 i)) + w i * (u1 i * e i)) + (-2 * dt) * (w i * (u2 i * mvec n G (vaxpy lam 1 dl) i))) 0 nv).
  { apply zsum_ext. intros i Hi. rewrite mvec_axpy. specialize (HE i Hi). unfold u2.
    set (g := mvec n G lam i) in *. set (h := mvec n G dl i) in *. set (l := mvec nv L u1 i) in *.
    assert (HE' : u1 i - dt * c * l = u i - dt * g + dt * e i) by (transitivity (dt * (u1 i / dt - c * l)); [field; exact Hdt|rewrite HE; field; exact Hdt]).
    assert (X : u1 i * u1 i + 2 * dt * (u1 i * g) = u i * u i - (u1 i - u i) * (u1 i - u i) + 2 * dt * (c * (u1 i * l) + u1 i * e i)).
    { assert (Y : u1 i * (u1 i - dt * c * l) = u1 i * (u i - dt * g + dt * e i)) by (now rewrite HE'). lra. }
    apply (f_equal (fun z => w i * z)) in X. lra. }
  unfold zsum in *. rewrite !sumR_plus, sumR_minus, sumR_plus in S. rewrite !sumR_scal in S. rewrite sumR_plus, sumR_scal in S.
  rewrite O in S. lra.
Qed.

(** * Boundary corrections *)
Section Corr.
Variables (m : mesh) (D : dec) (types : Z -> Z -> bctype) (values : Z -> Z -> R).
Hypothesis F : mfacts m D.
Hypothesis Hb : bc_fits m types.
Hypothesis Hu : undriven m types values.

Lemma undriven_a1 h r f s info : (0 <= r < nranks D)%Z -> has_ics h -> In (f, (s, info)) (bpts m D types values h r) -> gi_a1 info = 0.
Proof.
  intros Hr Hics Hin. destruct (bpts_In m D types values h r f s info F Hr Hin) as (loc & q & p & Hf & Hl & -> & Hne & _ & ->).
  destruct (Hu f loc Hf Hl) as [Hc Hv]. specialize (Hv Hne). destruct (Hb f loc Hf Hl) as [Hnb _].
  pose proof (steps_inv (bsb m D types values r f loc) h p (or_intror Hics)) as I. unfold eqs_inv, dir_eq, neu_eq, con_eq in I.
  assert (X : sb_type (bsb m D types values r f loc) = types f loc /\ sb_value (bsb m D types values r f loc) = values f loc) by (unfold bsb; destruct (types f loc); auto).
  destruct X as (X1 & X2). rewrite X1, X2, Hv in I. destruct (types f loc); try contradiction.
  - destruct (_ =? _)%Z; destruct I as [_ ->]; ring.
  - destruct I as [_ ->]. ring.
Qed.
Lemma undriven_correction rows h0 h1 B1 c : has_ics h0 -> boundary_after m D types values (h0 ++ h1) B1 ->
  correction_mult m (nranks D) (op_of m D types values rows h0) B1 = Ok c -> forall i, c i = 0.
Proof.
  intros Hics HB E i. rewrite (correct m D types values rows h0 h1 F Hb B1 HB) in E. injection E as <-.
  unfold vec_add_all. apply sumR_zero. intros e He. unfold asm_corr in He. apply in_flat_map in He. destruct He as (r & Hr & He). apply zrange_In in Hr.
  apply in_map_iff in He. destruct He as ((f & s & info) & <- & He). rewrite (surjective_pairing (mod_get _ f s)). cbn [fst snd].
  rewrite (undriven_a1 (h0 ++ h1) r f s info Hr); auto; [destruct (_ =? _)%Z; ring|].
  destruct Hics as [v Hv]. exists v. apply in_app_iff. auto.
Qed.
End Corr.

(** * Normal equations *)
(** The weighted normal equations of any columns are solvable. *)
Lemma normal_solvable nv (w : Z -> R) (K : mat) : (forall c, (0 <= c < nv)%Z -> 0 < w c) -> forall n, (0 <= n)%Z ->
  forall v : vec, exists x, forall r, (0 <= r < n)%Z -> zsum (fun c => w c * (K c r * (v c - mvec n K x c))) 0 nv = 0.
Proof.
  intros Hw k Hk. pattern k. apply (zind_up _ 0%Z); [| |exact Hk]; clear k Hk.
  { intros v. exists (fun _ => 0). intros; lia. }
  intros n Hn IH v. destruct (IH v) as (x0 & H0). destruct (IH (fun c => K c n)) as (x1 & H1).
  set (r0 := fun c => v c - mvec n K x0 c) in *. set (q := fun c => K c n - mvec n K x1 c) in *.
  set (ip := fun x y : vec => zsum (fun c => w c * (x c * y c)) 0 nv).
  assert (Ext : forall a y c, mvec (n + 1) K (fun j => if (j =? n)%Z then a else y j) c = mvec n K y c + a * K c n).
  { intros a y c. unfold mvec. rewrite zsum_snoc' by lia. rewrite Z.eqb_refl. rewrite (zsum_ext _ (fun l => K c l * y l)); [ring|].
    intros l Hl. replace (l =? n)%Z with false by lia. reflexivity. }
  assert (Span : forall z : vec, (forall r, (0 <= r < n)%Z -> ip (fun c => K c r) z = 0) -> forall y, ip (mvec n K y) z = 0).
  { intros z Hz y. unfold ip, mvec, zsum. rewrite (sumR_ext _ (fun c => sumR (fun r => y r * (w c * (K c r * z c))) (zrange 0 n))).
    - rewrite sumR_swap. apply sumR_zero. intros r Hr. apply zrange_In in Hr. rewrite sumR_scal. specialize (Hz r Hr). unfold ip, zsum in Hz. rewrite Hz. ring.
    - intros c _. rewrite <- sumR_scal_r, <- sumR_scal. apply sumR_ext. intros; ring. }
  assert (Lin : forall z : vec, ip (fun c => K c n) z = ip q z + ip (mvec n K x1) z).
  { intros z. unfold ip, zsum, q. rewrite <- sumR_plus. apply sumR_ext. intros; ring. }
  assert (Q : ip (fun c => K c n) q = ip q q) by (rewrite Lin, Span; [ring|exact H1]).
  assert (R0 : ip (fun c => K c n) r0 = ip q r0) by (rewrite Lin, Span; [ring|exact H0]).
  set (a := if Req_EM_T (ip q q) 0 then 0 else ip q r0 / ip q q).
  assert (A : ip q r0 = a * ip q q).
  { unfold a. destruct (Req_EM_T (ip q q) 0) as [Z0|Z0]; [|field; exact Z0]. rewrite Rmult_0_l.
    unfold ip, zsum. apply sumR_zero. intros c Hc. assert (Nn : forall c, In c (zrange 0 nv) -> 0 <= w c * (q c * q c)).
    { intros c0 Hc0. apply zrange_In in Hc0. specialize (Hw c0 Hc0). apply Rmult_le_pos; [lra|apply Rle_0_sqr]. }
    pose proof (sumR_nonneg_zero _ _ Nn Z0 c Hc) as Zc. cbv beta in Zc. apply zrange_In in Hc. specialize (Hw c Hc).
    apply Rmult_integral in Zc. destruct Zc as [Zc|Zc]; [lra|]. apply Rmult_integral in Zc. assert (Eq : q c = 0) by tauto. rewrite Eq. ring. }
  exists (fun j => if (j =? n)%Z then a else x0 j - a * x1 j). intros r Hr.
  assert (E : forall c, v c - mvec (n + 1) K (fun j => if (j =? n)%Z then a else x0 j - a * x1 j) c = r0 c - a * q c).
  { intros c. rewrite (Ext a (fun j => x0 j - a * x1 j) c). unfold r0, q.
    assert (Y : mvec n K (fun j => x0 j - a * x1 j) c = mvec n K x0 c - a * mvec n K x1 c).
    { unfold mvec, zsum. rewrite <- sumR_scal, <- sumR_minus. apply sumR_ext. intros; ring. }
    rewrite Y. ring. }
  rewrite (zsum_ext _ (fun c => w c * (K c r * r0 c) - a * (w c * (K c r * q c)))) by (intros c _; rewrite E; ring).
  unfold zsum. rewrite sumR_minus, sumR_scal. destruct (Z.eq_dec r n) as [->|Hne].
  - unfold ip, zsum in *. rewrite R0, Q, A. ring.
  - specialize (H0 r ltac:(lia)). specialize (H1 r ltac:(lia)). unfold zsum in H0, H1. fold (r0) in H0.
    change (sumR (fun c => w c * (K c r * r0 c)) (zrange 0 nv) = 0) in H0. change (sumR (fun c => w c * (K c r * q c)) (zrange 0 nv) = 0) in H1. rewrite H0, H1. ring.
Qed.

(** * The projection *)
(** If the solver of the Poisson system is exact, the projected velocity
    satisfies the constraints, whatever the velocity that is projected. [z]: a
    combination of the constraints that vanishes identically. *)
Lemma projection_exact nv n (w z : Z -> R) (G Dm BNG : mat) dt (refp : bool) ps g (U1 b : vec) : (1 <= n)%Z -> dt <> 0 ->
  (forall c, (0 <= c < nv)%Z -> 0 < w c) ->
  (forall r c, (0 <= r < n)%Z -> (0 <= c < nv)%Z -> Dm r c = - (w c * G c r)) ->
  (forall c j, (0 <= c < nv)%Z -> (0 <= j < n)%Z -> BNG c j = dt * G c j) ->
  z 0%Z = 1 -> (forall c, (0 <= c < nv)%Z -> zsum (fun r => z r * Dm r c) 0 n = 0) ->
  let A := mmul nv Dm BNG in
  exact_solver n (if refp then pin A else A) ps ->
  (forall i, (0 <= i < n)%Z -> b i = if refp && (i =? 0)%Z then 0 else mvec nv Dm U1 i) ->
  forall r, (0 <= r < n)%Z -> mvec nv Dm (vaxpy U1 (-1) (mvec n BNG (ps g b))) r = 0.
Proof.
  intros Hn Hdt Hw HA HB Hz0 Hz A Hex Hbv.
  assert (AG : forall x i, (0 <= i < n)%Z -> mvec n A x i = dt * mvec nv Dm (mvec n G x) i).
  { intros x i Hi. unfold A. rewrite mvec_mmul. unfold mvec at 1 3. unfold zsum at 1 2. rewrite <- sumR_scal. apply sumR_ext. intros c Hc. apply zrange_In in Hc.
    assert (E : mvec n BNG x c = dt * mvec n G x c). { unfold mvec, zsum. rewrite <- sumR_scal. apply sumR_ext. intros j Hj. apply zrange_In in Hj. rewrite HB by auto. ring. }
    rewrite E. ring. }
  assert (Col : forall j, (0 <= j < n)%Z -> zsum (fun i => z i * A i j) 0 n = 0).
  { intros j Hj. unfold A, mmul, zsum. rewrite (sumR_ext _ (fun i => sumR (fun c => z i * Dm i c * BNG c j) (zrange 0 nv))) by (intros; rewrite <- sumR_scal; apply sumR_ext; intros; ring).
    rewrite sumR_swap. apply sumR_zero. intros c Hc. apply zrange_In in Hc. rewrite sumR_scal_r. specialize (Hz c Hc). unfold zsum in Hz. rewrite Hz. ring. }
  assert (Sym : forall i j, (0 <= i < n)%Z -> (0 <= j < n)%Z -> A i j = A j i).
  { intros i j Hi Hj. unfold A, mmul. apply zsum_ext. intros c Hc. rewrite !HA, !HB by auto. ring. }
  assert (Null : forall i, (0 <= i < n)%Z -> mvec n A z i = 0).
  { intros i Hi. rewrite <- (Col i Hi). unfold mvec. apply zsum_ext. intros l Hl. rewrite (Sym i l) by auto. ring. }
  destruct (normal_solvable nv w G Hw n ltac:(lia) U1) as (x & Hx).
  set (y := fun i => x i / dt).
  assert (Hy : solves n A y (mvec nv Dm U1)).
  { intros i Hi. rewrite AG by auto. specialize (Hx i Hi).
    assert (E : forall c, mvec n G y c = mvec n G x c / dt). { intros c. unfold mvec, zsum, y. unfold Rdiv. rewrite <- sumR_scal_r. apply sumR_ext. intros; ring. }
    assert (S : mvec nv Dm U1 i - mvec nv Dm (mvec n G x) i = 0).
    { unfold mvec at 1 2. unfold zsum. rewrite <- sumR_minus. rewrite (sumR_ext _ (fun c => - (w c * (G c i * (U1 c - mvec n G x c))))).
      - rewrite sumR_opp. unfold zsum in Hx. rewrite Hx. ring.
      - intros c Hc. apply zrange_In in Hc. rewrite HA by auto. ring. }
    assert (S2 : mvec nv Dm (mvec n G y) i = mvec nv Dm (mvec n G x) i / dt).
    { unfold mvec at 1 3. unfold zsum, Rdiv. rewrite <- sumR_scal_r. apply sumR_ext. intros c _. rewrite E. unfold Rdiv. ring. }
    rewrite S2. replace (dt * (mvec nv Dm (mvec n G x) i / dt)) with (mvec nv Dm (mvec n G x) i) by (field; exact Hdt). lra. }
  assert (Hq : solves n A (ps g b) (mvec nv Dm U1)).
  { destruct refp.
    - assert (Ex : exists x', solves n (pin A) x' b).
      { exists (fun i => y i - y 0%Z * z i). intros i Hi. rewrite Hbv by auto. cbn [andb]. destruct (Z.eqb_spec i 0) as [->|Hne].
        - unfold mvec, zsum. rewrite (sumR_single _ _ 0%Z); [|apply zrange_NoDup|apply zrange_In; lia|].
          + unfold pin. cbn. rewrite Hz0. ring.
          + intros l _ Hl. unfold pin. rewrite Z.eqb_refl. cbn [orb]. replace (0 =? l)%Z with false by lia. ring.
        - rewrite <- (Hy i Hi). transitivity (mvec n A y i - y 0%Z * mvec n A z i); [|rewrite Null by auto; ring].
          unfold mvec, zsum. rewrite <- sumR_scal, <- sumR_minus. apply sumR_ext. intros l Hl. apply zrange_In in Hl. unfold pin. replace (i =? 0)%Z with false by lia. cbn [orb].
          destruct (Z.eqb_spec l 0) as [->|]; [|ring]. replace (i =? 0)%Z with false by lia. rewrite Hz0. ring. }
      pose proof (Hex g b Ex) as Hs. apply (pin_weighted n A (mvec nv Dm U1) (ps g b) z Hn Hz0 Col).
      + unfold mvec, zsum. rewrite (sumR_ext _ (fun i => sumR (fun c => z i * Dm i c * U1 c) (zrange 0 nv))) by (intros; rewrite <- sumR_scal; apply sumR_ext; intros; ring).
        rewrite sumR_swap. apply sumR_zero. intros c Hc. apply zrange_In in Hc. rewrite sumR_scal_r. specialize (Hz c Hc). unfold zsum in Hz. rewrite Hz. ring.
      + intros i Hi. rewrite (Hs i Hi), Hbv by auto. cbn [andb]. reflexivity.
    - assert (Ex : exists x', solves n A x' b) by (exists y; intros i Hi; rewrite (Hy i Hi), Hbv by auto; reflexivity).
      intros i Hi. rewrite (Hex g b Ex i Hi), Hbv by auto. reflexivity. }
  intros r Hr. rewrite mvec_axpy. rewrite <- mvec_mmul. fold A. rewrite (Hq r Hr). ring.
Qed.
Lemma bn_one nv L dt c BN (G : mat) : createBnHead nv L dt c 1 = Ok BN -> forall i j, (0 <= i < nv)%Z -> mmul nv BN G i j = dt * G i j.
Proof.
  intros EB i j Hi. cbn in EB. injection EB as EB. unfold mmul.
  rewrite (zsum_ext _ (fun l => if (l =? i)%Z then dt * G l j else 0)).
  - now rewrite (zsum_single i (fun l => dt * G l j)).
  - intros q Hq. rewrite <- EB. unfold mshift, mzero. rewrite (Z.eqb_sym i q). destruct (q =? i)%Z; ring.
Qed.

(** * A step of a solver *)
Lemma step_budget n m D P types values (O : nsops) (Dm : mat) (z : Z -> R) h0 h1 rhs_p conv vs ps s s2 :
  mesh_setup m D -> bc_fits m types -> periodic_min m 3 -> undriven m types values -> has_ics h0 -> 0 < p_dt P -> 0 <= p_dimp P * p_nu P ->
  boundary_after m D types values (h0 ++ h1) (s_bc s) ->
  o_L O = op_of m D types values (lap_rows m D) h0 ->
  o_A O = mshift (mscale (- p_dimp P * p_nu P) (entry (op_log (o_L O)))) (1 / p_dt P) ->
  (1 <= n)%Z -> (forall r c, (0 <= r < n)%Z -> (0 <= c < n_velocity m)%Z -> Dm r c = - (volume m D c * o_G O c r)) ->
  (forall c j, (0 <= c < n_velocity m)%Z -> (0 <= j < n)%Z -> o_BNG O c j = p_dt P * o_G O c j) ->
  z 0%Z = 1 -> (forall c, (0 <= c < n_velocity m)%Z -> zsum (fun r => z r * Dm r c) 0 n = 0) ->
  o_DBNG O = (if p_refp P then pin (mmul (n_velocity m) Dm (o_BNG O)) else mmul (n_velocity m) Dm (o_BNG O)) ->
  (forall U B b h, boundary_after m D types values (h0 ++ h) B -> rhs_p U B = Ok b ->
     forall i, (0 <= i < n)%Z -> b i = if p_refp P && (i =? 0)%Z then 0 else mvec (n_velocity m) Dm U i) ->
  exact_solver (n_velocity m) (o_A O) vs -> exact_solver n (o_DBNG O) ps ->
  advance_with n m D P O (rhs_velocity n m D P O conv) rhs_p vs ps s = Ok s2 ->
  (forall r, (0 <= r < n)%Z -> mvec (n_velocity m) Dm (s_U s2) r = 0) /\
  exists rhs1 s1, rhs_velocity n m D P O conv (mkNS (s_t s + p_dt P) (s_ite s + 1) (s_U s) (s_p s) (s_dP s) (s_conv s) (s_diff s) (s_bc s)) = Ok (rhs1, s1) /\
    let u1 := vs (s_U s) rhs1 in
    stored_energy n m D P O s2 = stored_energy n m D P O s - kinetic m D (fun i => u1 i - s_U s i)
      + p_dt P * (p_dimp P * p_nu P * inner m D u1 (mvec (n_velocity m) (entry (op_log (o_L O))) u1)
                  + inner m D u1 (fun i => weighted (p_cexp P) (s_conv s2) i + weighted (p_dexp P) (s_diff s2) i)).
Proof.
  intros Hset Hb Hmin Hu Hics Hdt Hc HB EL EA Hn Hadj HBN Hz0 Hz EDB Hrhs Hv Hp Ha. pose proof (setup_facts _ _ Hset) as F.
  destruct (advance_with_inv _ _ _ _ _ _ _ _ _ _ _ Ha) as (rhs1 & s1 & b & X1 & X2 & XB1 & XdP & XU & Xp & XB2 & Xt & Xi & Xc & Xd).
  destruct (rhs_value _ _ _ _ _ _ _ _ _ X1) as (c & Ec & Hr). cbn [s_U s_p] in Hr.
  pose proof (bc_call_inv m D types values _ _ _ _ F Hb HB XB1) as HB1. rewrite <- app_assoc in HB1.
  assert (C0 : forall i, c i = 0).
  { rewrite EL in Ec. eapply undriven_correction; eauto. }
  set (nv := n_velocity m) in *. set (u1 := vs (s_U s) rhs1) in *.
  assert (Hsol : solves nv (o_A O) u1 rhs1).
  { refine (Hv (s_U s) rhs1 _). destruct (injective_solvable nv (o_A O) (nv_nonneg m D Hset)) with (b := rhs1) as (x & Hx); [|exists x; exact Hx].
    intros x Hx i Hi.
    assert (Bd : Rabs (x i) <= p_dt P * 0).
    { rewrite EA, EL in Hx. apply (momentum_bound m D types values h0 (p_dimp P * p_nu P) (p_dt P) x (fun _ => 0) 0); auto; [|intros; rewrite Rabs_R0; lra].
      rewrite Ropp_mult_distr_l. exact Hx. }
    pose proof (Rabs_pos (x i)). destruct (Req_dec (x i) 0) as [|N]; auto. apply Rabs_pos_lt in N. lra. }
  assert (Hdiv : forall r, (0 <= r < n)%Z -> mvec nv Dm (s_U s2) r = 0).
  { rewrite XU. apply (projection_exact nv n (volume m D) z (o_G O) Dm (o_BNG O) (p_dt P) (p_refp P) ps (s_dP s) u1 b); auto; [lra| |rewrite <- EDB; exact Hp|].
    - intros c0 Hc0. now apply volume_pos.
    - intros i Hi. exact (Hrhs _ _ _ _ HB1 X2 i Hi). }
  split; [exact Hdiv|]. exists rhs1, s1. split; [exact X1|]. cbv zeta. fold u1.
  set (e := fun i => weighted (p_cexp P) (s_conv s2) i + weighted (p_dexp P) (s_diff s2) i).
  pose proof (budget nv n (volume m D) (o_G O) Dm (entry (op_log (o_L O))) (p_dt P) (p_dimp P * p_nu P) (s_U s) u1 (s_p s) (ps (s_dP s) b) e ltac:(lra) Hadj) as Bu.
  cbv zeta in Bu. assert (Eq : forall i, (0 <= i < nv)%Z -> s_U s2 i = u1 i - p_dt P * mvec n (o_G O) (ps (s_dP s) b) i).
  { intros i Hi. rewrite XU. unfold vaxpy. assert (E : mvec n (o_BNG O) (ps (s_dP s) b) i = p_dt P * mvec n (o_G O) (ps (s_dP s) b) i).
    { unfold mvec, zsum. rewrite <- sumR_scal. apply sumR_ext. intros j Hj. apply zrange_In in Hj. rewrite HBN by auto. ring. } rewrite E. ring. }
  assert (P1 : forall i, (0 <= i < nv)%Z -> u1 i / p_dt P - p_dimp P * p_nu P * mvec nv (entry (op_log (o_L O))) u1 i = s_U s i / p_dt P - mvec n (o_G O) (s_p s) i + e i).
  { intros i Hi. pose proof (Hsol i Hi) as Hs. rewrite Hr, C0, EA in Hs. rewrite mvec_shift in Hs by exact Hi. rewrite <- Xc, <- Xd in Hs. unfold e. unfold Rdiv in *. lra. }
  assert (P2 : forall r, (0 <= r < n)%Z -> mvec nv Dm (fun i => u1 i - p_dt P * mvec n (o_G O) (ps (s_dP s) b) i) r = 0).
  { intros r Hr0. rewrite <- (Hdiv r Hr0). unfold mvec at 1 3. apply zsum_ext. intros i Hi. now rewrite <- Eq. }
  specialize (Bu P1 P2). rewrite <- Xp in Bu.
  unfold stored_energy, kinetic. fold nv.
  rewrite (inner_ext m D (s_U s2) (fun i => u1 i - p_dt P * mvec n (o_G O) (ps (s_dP s) b) i) (s_U s2) (fun i => u1 i - p_dt P * mvec n (o_G O) (ps (s_dP s) b) i)) by assumption.
  unfold inner. fold nv. fold e. lra.
Qed.
