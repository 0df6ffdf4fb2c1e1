(** Accuracy of the discrete operators on smooth fields (C82). *)
From Coq Require Import ZifyBool.
From Verif Require Import Prelude ZSum RSum TypesModel GridModel GridSpec GridProof MeshProof IndexModel IndexSpec IndexProof
  BoundaryModel BoundarySpec BoundaryProof OperatorModel OperatorSpec OperatorProof BStateProof LapProof DivProof GradProof OperatorProps AlgebraProps MatModel
  ConvModel ConvSpec ConvProof ConvValue ConvTotal ConvProps BodyModel BodySpec DeltaModel DeltaSpec DeltaProof DeltaProps WorkProps
  SteadySpec SteadyProof ExampleSetup AccuracySpec AccuracyMesh AccuracyProof.
Local Open Scope R_scope.

(** C82. Sample a velocity field v at the points of the mesh. At every velocity
    point that is not next to a wall, in cells of equal width along each
    direction, L x + Lbc differs from the Laplacian of the component by at most
    the sum over the directions of M h^2 / 12, M a bound on the fourth
    derivative within one cell. *)
Theorem laplacian_second_order : forall m D types values h0 h1 v x B0 B1 B2,
  mesh_setup m D -> bc_fits m types -> has_ics h0 -> periodic_min m 3 ->
  boundary_after m D types values h0 B0 ->
  boundary_after m D types values (h0 ++ h1) B1 ->
  boundary_after m D types values (h0 ++ h1 ++ [OpVals x]) B2 ->
  velocity_of m D v x -> (forall g, (0 <= g < m_dim m)%Z -> repeating m (v g)) ->
  exists op c, createLaplacian m D B0 = Ok op /\ correction_mult m (nranks D) op B1 = Ok c /\
    forall id f p h der M, nthZ (packed_layout (m_dim m) D) id = Some (f, p) ->
      off_walls m f p -> even_cells m p h ->
      derivatives m (around m (site m f p) h) 4 (v f) der ->
      (forall d s, (0 <= d < m_dim m)%Z -> around m (site m f p) h s -> Rabs (der [d; d; d; d] s) <= M d) ->
      Rabs (mat_mult (op_log op) (n_velocity m) x id + c id - zsum (fun d => der [d; d] (site m f p)) 0 (m_dim m))
        <= zsum (fun d => M d / 12 * h d ^ 2) 0 (m_dim m).
Proof.
  intros m D types values h0 h1 v x B0 B1 B2 Hs Hb Hi Hm H0 H1 H2 Hv Hr. pose proof (setup_facts _ _ Hs) as F.
  destruct (extends_box_exists m D types values _ B2 x F Hb H2) as [u Hu].
  destruct (laplacian_is_extended_stencil m D types values h0 h1 x B0 B1 B2 u Hs Hb Hi Hm H0 H1 H2 (proj1 Hu)) as (op & c & E1 & E2 & E).
  exists op, c. split; [exact E1|]. split; [exact E2|]. intros id f p h der M Hid Ho Hh Hd HM. rewrite (E id f p Hid).
  destruct (velocity_row m D id f p F Hid) as (Hf & Hp & _). exact (laplacian_close m D Hs f Hf p Hp Ho h Hh B2 x u v Hu Hv Hr der M Hd HM).
Qed.
Print Assumptions laplacian_second_order.

(** C82. D x + Dbc over the size of the cell differs from the divergence of v at
    the centre of every cell that is not next to a wall by at most the sum of
    M w^2 / 24: on every mesh, stretched or not. *)
Theorem divergence_second_order : forall m D types values h0 h1 v x B0 B1 B2,
  mesh_setup m D -> bc_fits m types -> has_ics h0 -> periodic_min m 2 ->
  boundary_after m D types values h0 B0 ->
  boundary_after m D types values (h0 ++ h1) B1 ->
  boundary_after m D types values (h0 ++ h1 ++ [OpVals x]) B2 ->
  velocity_of m D v x -> (forall g, (0 <= g < m_dim m)%Z -> repeating m (v g)) ->
  exists op c, createDivergence m D B0 false = Ok op /\ correction_mult m (nranks D) op B1 = Ok c /\
    forall id p dv M, nthZ (field_layout D 3) id = Some p -> off_walls m 3 p ->
      let w := fun d => wid m 3 d (pc p d) in let A := around m (site m 3 p) (fun d => w d / 2) in
      (forall f, (0 <= f < m_dim m)%Z -> derivatives m A 3 (v f) (dv f)) ->
      (forall f s, (0 <= f < m_dim m)%Z -> A s -> Rabs (dv f [f; f; f] s) <= M f) ->
      Rabs ((mat_mult (op_log op) (n_velocity m) x id + c id) / cell_size m p - zsum (fun f => dv f [f] (site m 3 p)) 0 (m_dim m))
        <= zsum (fun f => M f / 24 * w f ^ 2) 0 (m_dim m).
Proof.
  intros m D types values h0 h1 v x B0 B1 B2 Hs Hb Hi Hm H0 H1 H2 Hv Hr. pose proof (setup_facts _ _ Hs) as F.
  destruct (extends_box_exists m D types values _ B2 x F Hb H2) as [u Hu].
  destruct (divergence_is_net_flux m D types values false h0 h1 x B0 B1 B2 u Hs Hb Hi Hm H0 H1 H2 (proj1 Hu)) as (op & c & E1 & E2 & E).
  exists op, c. split; [exact E1|]. split; [exact E2|]. intros id p dv M Hid Ho w A Hd HM. rewrite (E id p Hid).
  destruct (pressure_row m D id p F Hid) as (Hp & _). exact (divergence_close m D Hs p Hp Ho B2 x u v Hu Hv Hr dv M Hd HM).
Qed.
Print Assumptions divergence_second_order.

(** C82. G y at every velocity point, next to a wall or not: between cells of
    widths a and b the error is at most |q''| |b - a| / 4 + M (a^2 - a b + b^2) / 24,
    which is M h^2 / 24 where the widths are equal. *)
Theorem gradient_accuracy : forall m D q y,
  mesh_setup m D -> periodic_min m 2 -> pressure_of m D q y -> repeating m q ->
  exists G, createGradient m D false = Ok G /\
    forall id f p der M, nthZ (packed_layout (m_dim m) D) id = Some (f, p) ->
      let a := cell_width m f (pc p f) in let b := cell_width m f (pc p f + 1) in
      let A := around m (site m f p) (fun d => if (d =? f)%Z then Rmax a b / 2 else 0) in
      derivatives m A 3 q der -> (forall s, A s -> Rabs (der [f; f; f] s) <= M) ->
      Rabs (mat_mult G (n_pressure m) y id - der [f] (site m f p))
        <= Rabs (der [f; f] (site m f p)) * Rabs (b - a) / 4 + M / 24 * (a ^ 2 - a * b + b ^ 2).
Proof.
  intros m D q y Hs Hm Hy Hr. pose proof (setup_facts _ _ Hs) as F.
  destruct (gradient_is_face_difference m D false y (fun c => q (site m 3 c)) Hs Hm ltac:(intros id p Hid; symmetry; now apply Hy)) as (G & E1 & E).
  exists G. split; [exact E1|]. intros id f p der M Hid a b A Hd HM. rewrite (E id f p Hid).
  destruct (velocity_row m D id f p F Hid) as (Hf & Hp & _). exact (gradient_close m D Hs f Hf p Hp q _ Hr (fun c _ => eq_refl) der M Hd HM).
Qed.
Print Assumptions gradient_accuracy.

(** C82. The convective term at every velocity point that is not next to a
    wall, in cells of equal width along each direction: within a constant times
    H^2 of the sum over d of d(v_d v_f)/dx_d, K a bound on the velocities and
    their derivatives up to the third within one cell. *)
Theorem convection_second_order : forall m D types values C hist v x B y C',
  mesh_setup m D -> bc_fits m types -> conv_state m D types values C -> boundary_after m D types values hist B ->
  velocity_of m D v x -> (forall g, (0 <= g < m_dim m)%Z -> repeating m (v g)) ->
  convectionMult m D C B x = Ok (y, C') ->
  forall id f p h dv K H, nthZ (packed_layout (m_dim m) D) id = Some (f, p) ->
    off_walls m f p -> even_cells m p h -> let s0 := site m f p in
    (forall g, (0 <= g < m_dim m)%Z -> derivatives m (around m s0 h) 3 (v g) (dv g)) ->
    (forall g l s, (0 <= g < m_dim m)%Z -> (length l <= 3)%nat -> Forall (fun e => 0 <= e < m_dim m)%Z l -> around m s0 h s -> Rabs (dv g l s) <= K) ->
    (forall d, (0 <= d < m_dim m)%Z -> h d <= H) ->
    Rabs (y id - zsum (fun d => dv d [d] s0 * v f s0 + v d s0 * dv f [d] s0) 0 (m_dim m))
      <= zsum (fun d => K ^ 2 * H ^ 2 * (5 / 6 + H ^ 2 / 12)) 0 (m_dim m).
Proof.
  intros m D types values C hist v x B y C' Hs Hb HC HB Hv Hr E id f p h dv K H Hid Ho Hh s0 Hd HK HH. pose proof (setup_facts _ _ Hs) as F.
  destruct (extends_box_exists m D types values _ B x F Hb HB) as [u Hu].
  rewrite (conv_value m D types values C hist B x u y C' id f p Hs Hb HC HB Hu E Hid).
  - destruct (velocity_row m D id f p F Hid) as (Hf & Hp & _). exact (convection_close m D Hs f Hf p Hp Ho h Hh B x u v Hu Hv Hr dv K H Hd HK HH).
  - intros d Hdd _ Hp. pose proof (Ho d Hdd Hp). right. split; intros; lia.
Qed.
Print Assumptions convection_second_order.

(** * Next to a wall *)
Definition hill (f : Z) (s : spot) : R := if (f =? 0)%Z then sc s 1 ^ 2 else 0.
Definition hill_der (l : list Z) (s : spot) : R :=
  match l with [] => sc s 1 ^ 2 | [d] => if (d =? 1)%Z then 2 * sc s 1 else 0
    | [d; e] => if ((d =? 1) && (e =? 1))%Z then 2 else 0 | _ => 0 end.
Definition hill_values (f loc : Z) : R := if (f =? 0)%Z then (if (loc =? 3)%Z then 64 else 0) else 0.
Definition hill_u (f : Z) (q : pt) : R :=
  if (f =? 0)%Z then (if (pc q 1 =? -1)%Z then - (1 / 4) else if (pc q 1 =? 8)%Z then 128 - 225 / 4 else (IZR (pc q 1) + 1 / 2) ^ 2) else 0.

Lemma hill_repeats : repeats (un_mesh true false) hill_u.
Proof.
  intros f [[i j] k] Hf Hq Hi. rewrite un_dim in Hf. unfold hill_u. assert (f = 0 \/ f = 1)%Z as [->| ->] by lia; [|reflexivity].
  cbn [Z.eqb]. rewrite pc_image by lia. cbn [pc Z.eqb Pos.eqb] in *. change (m_n (un_mesh true false) 0 1) with 8%Z.
  unfold has_image in Hi. change (m_n (un_mesh true false) 0 1) with 8%Z in Hi. change (periodic_dir (un_mesh true false) 1) with false in Hi.
  assert (0 <= j < 8)%Z. { unfold outside in Hi. apply andb_true_iff in Hi as [Hi _]. apply andb_true_iff in Hi as [_ Hi]. destruct ((j <? 0) || (j >=? 8))%Z eqn:E; [discriminate|]. apply orb_false_iff in E as [E1 E2]. rewrite Z.geb_leb in E2. apply Z.ltb_ge in E1. apply Z.leb_gt in E2. split; assumption. } unfold wrap. rewrite Z.mod_small by lia. reflexivity.
Qed.
Lemma hill_ghosts : steady_ghosts (un_mesh true false) (un_types true false) hill_values hill_u.
Proof.
  intros f loc [[i j] k] Hf Hl Hp [Hg Hi]. rewrite un_dim in Hf, Hl.
  assert (loc = 0 \/ loc = 1 \/ loc = 2 \/ loc = 3)%Z as [->|[->|[->| ->]]] by lia; try discriminate Hp; cbv zeta;
  assert (f = 0 \/ f = 1)%Z as [->| ->] by lia; unfold inner_of, hill_u, hill_values, un_types, loc_dir in *; cbn in Hg |- *; subst; cbn; try lra.
  change (m_n (un_mesh true false) 0 1) with 8%Z. cbn. lra.
Qed.

Lemma hill_derivatives : derivatives (un_mesh true false) (fun _ => True) 4 (hill 0) hill_der.
Proof.
  split; [reflexivity|]. rewrite un_dim. intros l d Hl Hfl Hd [[a b] c] _. assert (d = 0 \/ d = 1)%Z as [->| ->] by lia; unfold put; cbn [Z.eqb Pos.eqb].
  - assert (E : forall t, hill_der l (t, b, c) = hill_der l (a, b, c)) by (intros t; destruct l as [|e [|e' [|]]]; reflexivity).
    assert (E0 : hill_der (0%Z :: l) (a, b, c) = 0) by (destruct l as [|e [|]]; reflexivity). rewrite E0.
    apply (derivable_pt_lim_ext (fct_cte (hill_der l (a, b, c)))); [intros t; symmetry; apply E|]. apply derivable_pt_lim_const.
  - destruct l as [|e [|e' l']].
    + cbn. replace (2 * b) with (INR 2 * b ^ 1) by (simpl; ring). exact (derivable_pt_lim_pow b 2).
    + cbn. destruct (Z.eqb_spec e 1).
      * pose proof (derivable_pt_lim_scal id 2 b 1 (derivable_pt_lim_id b)) as X. rewrite Rmult_1_r in X. exact X.
      * apply derivable_pt_lim_const.
    + destruct l'; cbn; apply derivable_pt_lim_const.
Qed.

Lemma hill_site f p : (0 <= f < 2)%Z -> interior (m_n (un_mesh true false) f) p -> hill_u f p = hill f (site (un_mesh true false) f p).
Proof.
  intros Hf Hp. assert (f = 0 \/ f = 1)%Z as [->| ->] by lia; [|reflexivity]. destruct p as [[i j] k]. destruct Hp as (_ & Hj & _).
  change (m_n (un_mesh true false) 0 1) with 8%Z in Hj. unfold hill_u, hill, site, sc. cbn [Z.eqb Pos.eqb pc].
  rewrite un_crd by (try lia; change (m_n (un_mesh true false) 0 1) with 8%Z; lia). unfold upos. cbn [Z.eqb].
  replace (j =? -1)%Z with false by lia. replace (j =? 8)%Z with false by lia. reflexivity.
Qed.
Lemma hill_row : laplacian_at (un_mesh true false) 0 hill_u (2, 0, 0)%Z = 3 / 2.
Proof.
  unfold laplacian_at. rewrite un_dim. unfold zsum. change (zrange 0 2) with [0; 1]%Z. cbn [sumR]. unfold second_difference.
  assert (N0 : m_n (un_mesh true false) 0 0 = 8%Z) by reflexivity. assert (N1 : m_n (un_mesh true false) 0 1 = 8%Z) by reflexivity.
  assert (W : forall d i, (0 <= d < 2)%Z -> (0 <= i < 8)%Z -> wid (un_mesh true false) 0 d i = 1).
  { intros d i Hd Hi. rewrite (uni_wid _ _ _ (un_setup true false) (un_uniform true false)); rewrite ?un_dim; try lia; try reflexivity.
    assert (d = 0 \/ d = 1)%Z as [->| ->] by lia; rewrite ?N0, ?N1; lia. }
  rewrite !un_crd by (cbn [pc Z.eqb Pos.eqb]; rewrite ?N0, ?N1; lia). cbn [pc Z.eqb Pos.eqb]. rewrite !W by lia. unfold upos, hill_u. cbn. lra.
Qed.

(** C82, the limit: next to a wall the Laplacian is not accurate to any order.
    The flow v = (y^2, 0) over the 8 x 8 mesh of unit cells, periodic in x, with
    the Dirichlet values that v itself has on both walls: the fourth derivatives
    vanish, so that the bound above is 0, but in the first row off the wall the
    operator gives 3/2 instead of 2. (The error, a quarter of the second
    derivative, does not depend on the size of the cells.) *)
Theorem wall_row_refuted : exists m D types values h0 h1 v x B0 B1 B2 op c id f p der,
  mesh_setup m D /\ bc_fits m types /\ has_ics h0 /\ periodic_min m 3 /\
  boundary_after m D types values h0 B0 /\
  boundary_after m D types values (h0 ++ h1) B1 /\
  boundary_after m D types values (h0 ++ h1 ++ [OpVals x]) B2 /\
  velocity_of m D v x /\ (forall g, (0 <= g < m_dim m)%Z -> repeating m (v g)) /\
  (forall g loc s, (0 <= g < m_dim m)%Z -> (0 <= loc < 2 * m_dim m)%Z -> types g loc = DIRICHLET ->
     sc s (loc_dir loc) = (if (loc mod 2 =? 0)%Z then m_min m (loc_dir loc) else m_max m (loc_dir loc)) -> v g s = values g loc) /\
  createLaplacian m D B0 = Ok op /\ correction_mult m (nranks D) op B1 = Ok c /\
  nthZ (packed_layout (m_dim m) D) id = Some (f, p) /\ even_cells m p unit_h /\
  derivatives m (fun _ => True) 4 (v f) der /\ (forall d s, der [d; d; d; d] s = 0) /\
  zsum (fun d => der [d; d] (site m f p)) 0 (m_dim m) = 2 /\
  mat_mult (op_log op) (n_velocity m) x id + c id = 3 / 2.
Proof.
  set (m := un_mesh true false). set (D := un_dec true false). set (types := un_types true false).
  pose proof (un_setup true false) as Hs. pose proof (setup_facts _ _ Hs) as F. pose proof (un_fits true false) as Hb.
  fold m D in Hs, F. fold m types in Hb.
  set (x := fun id => match nthZ (packed_layout (m_dim m) D) id with Some (f, p) => hill_u f p | None => 0 end).
  assert (Hx : holds m D hill_u x) by (intros id f p Hid; unfold x; now rewrite Hid).
  pose proof (fun h => pure_after m D types hill_values h F Hb) as PA.
  pose proof (steady_extends m D types hill_values hill_u Hs Hb hill_repeats hill_ghosts x [OpVals x] _ x Hx ltac:(repeat constructor; exact Hx) (PA _) Hx) as Hu.
  destruct (laplacian_is_extended_stencil m D types hill_values [OpICs x] [] x _ _ _ hill_u Hs Hb ltac:(exists x; now left) (un_min_all true false) (PA _) (PA _) (PA _) (proj1 Hu))
    as (op & c & E1 & E2 & E).
  destruct (idx_spec m D 0 (2, 0, 0)%Z F ltac:(change (m_dim m) with 2%Z; lia) ltac:(vm_compute; intuition congruence)) as [_ N].
  exists m, D, types, hill_values, [OpICs x], [], hill, x. do 3 eexists. exists op, c. do 2 eexists. exists (2, 0, 0)%Z, hill_der.
  split; [exact Hs|]. split; [exact Hb|]. split; [exists x; now left|]. split; [exact (un_min_all true false)|].
  split; [apply PA|]. split; [apply PA|]. split; [apply PA|].
  split. { intros id f p Hid. rewrite (Hx _ _ _ Hid). destruct (velocity_row m D id f p F Hid) as (Hf & Hp & _). apply hill_site; auto. }
  split. { intros g Hg d [[a b] z] Hd Hp. unfold m in Hd. rewrite un_dim in Hd. assert (d = 0 \/ d = 1)%Z as [->| ->] by lia; [reflexivity|discriminate Hp]. }
  split. { intros g loc [[a b] z] Hg Hl Ht Hw. change (m_dim m) with 2%Z in Hg, Hl.
    unfold m in Hw. rewrite (proj1 (un_box true false _)), (proj2 (un_box true false _)) in Hw.
    assert (loc = 0 \/ loc = 1 \/ loc = 2 \/ loc = 3)%Z as [->|[->|[->| ->]]] by lia; try discriminate Ht;
    assert (g = 0 \/ g = 1)%Z as [->| ->] by lia; unfold hill, hill_values, loc_dir in *; cbn in Hw |- *; subst; lra. }
  split; [exact E1|]. split; [exact E2|]. split; [exact N|].
  split. { intros d j Hd Hj _. exact (proj2 (un_uniform true false d Hd) j Hj). }
  split; [exact hill_derivatives|]. split; [reflexivity|].
  split. { change (m_dim m) with 2%Z. unfold zsum. change (zrange 0 2) with [0; 1]%Z. cbn. lra. }
  rewrite (E _ _ _ N). apply hill_row.
Qed.
Print Assumptions wall_row_refuted.

(** * The hypotheses can be met *)
(** sin (pi x / 4) sin (pi y / 4) and its derivatives, over the mesh of unit cells
    on [0, 8] x [0, 8], for every combination of periodic directions and walls. *)
Definition ripple (k : nat) (t : R) : R := sin (PI / 4 * t + INR k * (PI / 2)).
Definition ripples (l : list Z) (s : spot) : R :=
  (PI / 4) ^ length l * (ripple (count_occ Z.eq_dec l 0%Z) (sc s 0) * ripple (count_occ Z.eq_dec l 1%Z) (sc s 1)).
Lemma ripple_step k t : derivable_pt_lim (ripple k) t (PI / 4 * ripple (S k) t).
Proof.
  unfold ripple. set (a := PI / 4). set (c := INR k * (PI / 2)).
  assert (L : derivable_pt_lim (fun t => a * t + c) t a).
  { pose proof (derivable_pt_lim_plus (mult_real_fct a id) (fct_cte c) t (a * 1) 0 (derivable_pt_lim_scal id a t 1 (derivable_pt_lim_id t)) (derivable_pt_lim_const c t)) as X.
    rewrite Rmult_1_r, Rplus_0_r in X. exact X. }
  pose proof (derivable_pt_lim_comp (fun t => a * t + c) sin t a (cos (a * t + c)) L (derivable_pt_lim_sin _)) as X.
  replace (a * sin (a * t + INR (S k) * (PI / 2))) with (cos (a * t + c) * a).
  - exact X.
  - rewrite S_INR. replace (a * t + (INR k + 1) * (PI / 2)) with (PI / 2 + (a * t + c)) by (unfold c; field). rewrite <- cos_sin. ring.
Qed.
Lemma ripple_turn k t : ripple k (t + 8) = ripple k t.
Proof. unfold ripple. replace (PI / 4 * (t + 8) + INR k * (PI / 2)) with (PI / 4 * t + INR k * (PI / 2) + 2 * INR 1 * PI) by (simpl; field). apply (sin_period _ 1). Qed.
Lemma ripple_le k t : Rabs (ripple k t) <= 1.
Proof. unfold ripple. apply Rabs_le. apply SIN_bound. Qed.
Lemma ripples_le l s : Rabs (ripples l s) <= 1.
Proof.
  pose proof PI_RGT_0. pose proof PI_4. unfold ripples. rewrite !Rabs_mult.
  assert (0 <= (PI / 4) ^ length l) by (apply pow_le; lra).
  assert ((PI / 4) ^ length l <= 1) by (rewrite <- (pow1 (length l)); apply pow_incr; lra).
  rewrite (Rabs_pos_eq ((PI / 4) ^ length l)) by assumption.
  pose proof (ripple_le (count_occ Z.eq_dec l 0%Z) (sc s 0)) as A1. pose proof (ripple_le (count_occ Z.eq_dec l 1%Z) (sc s 1)) as A2.
  pose proof (Rabs_pos (ripple (count_occ Z.eq_dec l 0%Z) (sc s 0))). pose proof (Rabs_pos (ripple (count_occ Z.eq_dec l 1%Z) (sc s 1))).
  rewrite <- (Rmult_1_l 1). apply Rmult_le_compat; auto; [now apply Rmult_le_pos|]. rewrite <- (Rmult_1_l 1). now apply Rmult_le_compat.
Qed.
Lemma ripples_derivatives px py A n : derivatives (un_mesh px py) A n (ripples []) ripples.
Proof.
  split; [reflexivity|]. rewrite un_dim. intros l d _ _ Hd [[a b] c] _. unfold ripples. cbn [length pow].
  set (W := (PI / 4) ^ length l). assert (d = 0 \/ d = 1)%Z as [->| ->] by lia; unfold put; cbn [Z.eqb Pos.eqb sc].
  - rewrite count_occ_cons_eq, count_occ_cons_neq by (reflexivity || discriminate).
    set (k0 := count_occ Z.eq_dec l 0%Z). set (k1 := ripple (count_occ Z.eq_dec l 1%Z) b).
    pose proof (derivable_pt_lim_scal (ripple k0) (W * k1) a _ (ripple_step k0 a)) as X.
    replace (PI / 4 * W * (ripple (S k0) a * k1)) with (W * k1 * (PI / 4 * ripple (S k0) a)) by ring.
    apply (derivable_pt_lim_ext (mult_real_fct (W * k1) (ripple k0))); [intros t; unfold mult_real_fct; ring|exact X].
  - rewrite count_occ_cons_neq, count_occ_cons_eq by (reflexivity || discriminate).
    set (k0 := count_occ Z.eq_dec l 1%Z). set (k1 := ripple (count_occ Z.eq_dec l 0%Z) a).
    pose proof (derivable_pt_lim_scal (ripple k0) (W * k1) b _ (ripple_step k0 b)) as X.
    replace (PI / 4 * W * (k1 * ripple (S k0) b)) with (W * k1 * (PI / 4 * ripple (S k0) b)) by ring.
    apply (derivable_pt_lim_ext (mult_real_fct (W * k1) (ripple k0))); [intros t; unfold mult_real_fct; ring|exact X].
Qed.
Lemma ripples_repeating px py : repeating (un_mesh px py) (ripples []).
Proof.
  intros d [[a b] c] Hd _. rewrite un_dim in Hd. destruct (un_box px py d) as [-> ->]. replace (8 - 0) with 8 by lra. unfold ripples.
  assert (d = 0 \/ d = 1)%Z as [->| ->] by lia; unfold put; cbn [Z.eqb Pos.eqb sc]; now rewrite ripple_turn.
Qed.
Example accuracy_case : forall px py h1, let m := un_mesh px py in let D := un_dec px py in let types := un_types px py in let v := fun _ : Z => ripples [] in
  mesh_setup m D /\ bc_fits m types /\ periodic_min m 3 /\ periodic_min m 2 /\
  exists x y z B0 B1 B2 C', has_ics [OpICs x] /\ boundary_after m D types (fun _ _ => 0) [OpICs x] B0 /\
    boundary_after m D types (fun _ _ => 0) ([OpICs x] ++ h1) B1 /\
    boundary_after m D types (fun _ _ => 0) ([OpICs x] ++ h1 ++ [OpVals x]) B2 /\
    convectionMult m D (createConvection m D) B2 x = Ok (z, C') /\
    velocity_of m D v x /\ pressure_of m D (ripples []) y /\ repeating m (ripples []) /\
    (forall A n, derivatives m A n (ripples []) ripples) /\ (forall l s, Rabs (ripples l s) <= 1) /\
    (exists id f p, nthZ (packed_layout (m_dim m) D) id = Some (f, p) /\ off_walls m f p /\ even_cells m p unit_h) /\
    (exists id p, nthZ (field_layout D 3) id = Some p /\ off_walls m 3 p).
Proof.
  intros px py h1 m D types v. pose proof (un_setup px py) as Hs. pose proof (setup_facts _ _ Hs) as F. pose proof (un_fits px py) as Hb.
  fold m D in Hs, F. fold m types in Hb.
  split; [exact Hs|]. split; [exact Hb|]. split; [apply un_min_all|].
  split. { intros f d Hf Hd Hp. pose proof (un_min_all px py f d Hf Hd Hp) as N. fold m in N. clear - N. lia. }
  set (x := fun id => match nthZ (packed_layout (m_dim m) D) id with Some (f, p) => v f (site m f p) | None => 0 end).
  set (y := fun id => match nthZ (field_layout D 3) id with Some p => ripples [] (site m 3 p) | None => 0 end).
  pose proof (fun h => pure_after m D types (fun _ _ => 0) h F Hb) as PA.
  destruct (conv_in_bounds m D types (fun _ _ => 0) (createConvection m D) _ _ x Hs Hb (cs_new _ _ _ _) (PA ([OpICs x] ++ h1 ++ [OpVals x]))) as (z & C' & E).
  exists x, y, z. do 3 eexists. exists C'. split; [exists x; now left|]. split; [apply PA|]. split; [apply PA|]. split; [apply PA|]. split; [exact E|].
  split; [intros id f p Hid; unfold x; now rewrite Hid|]. split; [intros id p Hid; unfold y; now rewrite Hid|].
  split; [apply ripples_repeating|]. split; [intros; apply ripples_derivatives|]. split; [exact ripples_le|].
  split.
  - destruct (idx_spec m D 0 (3, 3, 0)%Z F ltac:(unfold m; rewrite un_dim; lia) ltac:(destruct px, py; vm_compute; intuition congruence)) as [_ N].
    eexists _, 0%Z, (3, 3, 0)%Z. split; [exact N|]. split.
    + intros d Hd _. unfold m in Hd. rewrite un_dim in Hd. assert (d = 0 \/ d = 1)%Z as [->| ->] by lia; destruct px, py; vm_compute; intuition congruence.
    + intros d j Hd Hj _. exact (proj2 (un_uniform px py d Hd) j Hj).
  - destruct (pidx_spec m D (3, 3, 0)%Z F ltac:(destruct px, py; vm_compute; intuition congruence)) as [_ N].
    eexists _, (3, 3, 0)%Z. split; [exact N|].
    intros d Hd _. unfold m in Hd. rewrite un_dim in Hd. assert (d = 0 \/ d = 1)%Z as [->| ->] by lia; destruct px, py; vm_compute; intuition congruence.
Qed.
