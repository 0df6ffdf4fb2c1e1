(** C76: two-dimensional flows are also what three-dimensional runs compute.
    C77: runs do not depend on the choice of axes and units. *)
From Coq Require Import ZArith Reals Lra Lia.
From Coq Require Import ZifyBool.
From Verif Require Import Prelude ZSum RSum TypesModel GridModel GridSpec GridProof MeshProof
  IndexModel IndexSpec IndexProof BoundaryModel BoundarySpec BoundaryProof OperatorModel OperatorSpec OperatorProof BStateProof
  MatModel BnModel NSModel NSSpec NSProof NSPin NSTotal NSProps UniqueProof UniqueProps OperatorProps
  ConvModel ConvSpec ConvTotal ConvProps ExampleSetup DecSpec DecProof DecConv DecProps SteadySpec
  WidthProof SimSpec SimOne SimProof SimPlane SimFrame.
Local Open Scope R_scope.

(** C76. A 2D run and a run on the same grid extruded in the third direction,
    periodic there or between planes of symmetry, started from the same plane
    flow: both make any number k of steps, and the second one holds the velocity
    and (up to a constant) the pressure of the first one in every plane, and no
    velocity across. Any exact linear solvers, any process grids (see
    [whole_planes] if something flows through the boundaries). *)
Theorem plane_flow_kept : forall mA mB DA DB tyA tyB vaA vaB PA PB tA tB nA nB UA qA UB qB OA OB a0 b0 vsA psA vsB psB k,
  mesh_setup mA DA -> mesh_setup mB DB -> bc_fits mA tyA -> bc_fits mB tyB ->
  extruded mA mB -> extruded_bc mB tyA tyB vaA vaB -> same_scheme PA PB ->
  periodic_min mA 3 -> periodic_min mB 3 -> no_normal_neumann mA tyA ->
  p_bn PA = 1%Z -> 0 < p_dt PA -> 0 <= p_dimp PA * p_nu PA ->
  (p_refp PA = true -> impermeable mA tyA vaA) -> (p_refp PB = true -> impermeable mA tyA vaA) ->
  impermeable mA tyA vaA \/ (whole_planes mA DA /\ whole_planes mB DB) ->
  ns_init mA DA PA tyA vaA tA nA UA qA = Ok (OA, a0) -> ns_init mB DB PB tyB vaB tB nB UB qB = Ok (OB, b0) ->
  plane_velocity mA DA mB DB UA UB -> plane_pressure DA DB qA qB ->
  exact_run mA DA PA OA (convection mA DA) vsA psA a0 k -> exact_run mB DB PB OB (convection mB DB) vsB psB b0 k ->
  exists sA sB, ns_steps mA DA PA OA (convection mA DA) vsA psA k a0 = Ok sA /\ ns_steps mB DB PB OB (convection mB DB) vsB psB k b0 = Ok sB /\
    plane_velocity mA DA mB DB (s_U sA) (s_U sB) /\ plane_pressure DA DB (s_p sA) (s_p sB).
Proof.
  intros mA mB DA DB tyA tyB vaA vaB PA PB tA tB nA nB UA qA UB qB OA OB a0 b0 vsA psA vsB psB k HsA HsB HbA HbB He Hb Hsm HmA HmB HnA Hbn Hdt Hc HcA HcB Hw HIA HIB HU Hq XA XB.
  destruct (steps_total mA DA PA tyA vaA (setup_facts _ _ HsA) HbA (convection mA DA) vsA psA tA nA UA qA OA a0 k HIA) as (sA & EA); [intros; eapply convection_total; eauto|].
  destruct (steps_total mB DB PB tyB vaB (setup_facts _ _ HsB) HbB (convection mB DB) vsB psB tB nB UB qB OB b0 k HIB) as (sB & EB); [intros; eapply convection_total; eauto|].
  exists sA, sB. split; [exact EA|]. split; [exact EB|].
  exact (plane_run mA mB DA DB tyA tyB vaA vaB PA PB HsA HsB HbA HbB He Hb Hsm tA tB nA nB UA qA UB qB OA OB a0 b0 vsA psA vsB psB HmA HmB HnA Hbn Hdt Hc HcA HcB Hw HIA HIB HU Hq k sA sB XA XB EA EB).
Qed.
Print Assumptions plane_flow_kept.

Lemma frame_lemma F mA mB DA DB tyA tyB vaA vaB PA PB tA tB nA nB UA qA UB qB OA OB a0 b0 vsA psA vsB psB k :
  mesh_setup mA DA -> mesh_setup mB DB -> bc_fits mA tyA -> bc_fits mB tyB ->
  frame_ok (m_dim mA) F -> framed F mA mB -> framed_bc F mB tyA tyB vaA vaB -> framed_scheme F PA PB ->
  periodic_min mA 3 -> no_normal_neumann mA tyA ->
  p_bn PA = 1%Z -> 0 < p_dt PA -> 0 <= p_dimp PA * p_nu PA ->
  (p_refp PA = true -> impermeable mA tyA vaA) -> (p_refp PB = true -> impermeable mA tyA vaA) ->
  impermeable mA tyA vaA \/ (whole_domain mA DA /\ whole_domain mB DB) ->
  ns_init mA DA PA tyA vaA tA nA UA qA = Ok (OA, a0) -> ns_init mB DB PB tyB vaB tB nB UB qB = Ok (OB, b0) ->
  framed_velocity F mA DA mB DB UA UB -> framed_pressure F mB DA DB qA qB ->
  exact_run mA DA PA OA (convection mA DA) vsA psA a0 k -> exact_run mB DB PB OB (convection mB DB) vsB psB b0 k ->
  exists sA sB, ns_steps mA DA PA OA (convection mA DA) vsA psA k a0 = Ok sA /\ ns_steps mB DB PB OB (convection mB DB) vsB psB k b0 = Ok sB /\
    framed_velocity F mA DA mB DB (s_U sA) (s_U sB) /\ framed_pressure F mB DA DB (s_p sA) (s_p sB).
Proof.
  intros HsA HsB HbA HbB HF He Hb Hsm HmA HnA Hbn Hdt Hc HcA HcB Hw HIA HIB HU Hq XA XB.
  destruct (steps_total mA DA PA tyA vaA (setup_facts _ _ HsA) HbA (convection mA DA) vsA psA tA nA UA qA OA a0 k HIA) as (sA & EA); [intros; eapply convection_total; eauto|].
  destruct (steps_total mB DB PB tyB vaB (setup_facts _ _ HsB) HbB (convection mB DB) vsB psB tB nB UB qB OB b0 k HIB) as (sB & EB); [intros; eapply convection_total; eauto|].
  exists sA, sB. split; [exact EA|]. split; [exact EB|].
  exact (frame_run F mA mB DA DB tyA tyB vaA vaB PA PB HsA HsB HbA HbB HF He Hb Hsm tA tB nA nB UA qA UB qB OA OB a0 b0 vsA psA vsB psB HmA HnA Hbn Hdt Hc HcA HcB Hw HIA HIB HU Hq k sA sB XA XB EA EB).
Qed.

(** C77. A case and the same case described in other axes (renamed, reversed)
    and other units of length and velocity: both runs make any number k of
    steps, and their velocities and (up to a constant) pressures stay the same
    fields in these axes and units. *)
Theorem frame_independent : forall F mA mB DA DB tyA tyB vaA vaB PA PB tA tB nA nB UA qA UB qB OA OB a0 b0 vsA psA vsB psB k,
  mesh_setup mA DA -> mesh_setup mB DB -> bc_fits mA tyA -> bc_fits mB tyB ->
  frame_ok (m_dim mA) F -> framed F mA mB -> framed_bc F mB tyA tyB vaA vaB -> framed_scheme F PA PB ->
  periodic_min mA 3 -> no_normal_neumann mA tyA ->
  p_bn PA = 1%Z -> 0 < p_dt PA -> 0 <= p_dimp PA * p_nu PA ->
  (p_refp PA = true -> impermeable mA tyA vaA) -> (p_refp PB = true -> impermeable mA tyA vaA) ->
  impermeable mA tyA vaA \/ (whole_domain mA DA /\ whole_domain mB DB) ->
  ns_init mA DA PA tyA vaA tA nA UA qA = Ok (OA, a0) -> ns_init mB DB PB tyB vaB tB nB UB qB = Ok (OB, b0) ->
  framed_velocity F mA DA mB DB UA UB -> framed_pressure F mB DA DB qA qB ->
  exact_run mA DA PA OA (convection mA DA) vsA psA a0 k -> exact_run mB DB PB OB (convection mB DB) vsB psB b0 k ->
  exists sA sB, ns_steps mA DA PA OA (convection mA DA) vsA psA k a0 = Ok sA /\ ns_steps mB DB PB OB (convection mB DB) vsB psB k b0 = Ok sB /\
    framed_velocity F mA DA mB DB (s_U sA) (s_U sB) /\ framed_pressure F mB DA DB (s_p sA) (s_p sB).
Proof. exact frame_lemma. Qed.
Print Assumptions frame_independent.

(** C77. The same Reynolds number: lengths times L, velocities times V, the time
    step times L / V and the viscosity times L V give velocities times V and
    pressures times V V (up to a constant) at the same points. *)
Theorem similar_flows : forall L V mA mB DA DB types vaA vaB PA PB tA tB nA nB UA qA UB qB OA OB a0 b0 vsA psA vsB psB k,
  0 < L -> 0 < V -> mesh_setup mA DA -> mesh_setup mB DB -> bc_fits mA types ->
  m_dim mB = m_dim mA -> (forall d, (0 <= d < 3)%Z -> periodic_dir mB d = periodic_dir mA d) ->
  (forall d, (0 <= d < m_dim mA)%Z -> m_n mB 3 d = m_n mA 3 d /\ forall i, (0 <= i < m_n mA 3 d)%Z -> wid mB 3 d i = L * wid mA 3 d i) ->
  (forall f loc, (0 <= f < m_dim mA)%Z -> (0 <= loc < m_dim mA * 2)%Z -> vaB f loc = (if bctype_eqb (types f loc) NEUMANN then V / L else V) * vaA f loc) ->
  p_dt PB = L / V * p_dt PA -> p_nu PB = L * V * p_nu PA ->
  p_bn PA = 1%Z -> p_bn PB = 1%Z -> p_dimp PB = p_dimp PA -> p_cexp PB = p_cexp PA -> p_dexp PB = p_dexp PA ->
  periodic_min mA 3 -> no_normal_neumann mA types -> 0 < p_dt PA -> 0 <= p_dimp PA * p_nu PA ->
  (p_refp PA = true -> impermeable mA types vaA) -> (p_refp PB = true -> impermeable mA types vaA) ->
  impermeable mA types vaA \/ (whole_domain mA DA /\ whole_domain mB DB) ->
  ns_init mA DA PA types vaA tA nA UA qA = Ok (OA, a0) -> ns_init mB DB PB types vaB tB nB UB qB = Ok (OB, b0) ->
  let similar sc x y := forall idA idB e, nthZ (packed_layout (m_dim mA) DA) idA = Some e -> nthZ (packed_layout (m_dim mB) DB) idB = Some e -> y idB = sc * x idA in
  let similar_pressure sc x y := exists a, forall idA idB p, nthZ (field_layout DA 3) idA = Some p -> nthZ (field_layout DB 3) idB = Some p -> y idB + a = sc * x idA in
  similar V UA UB -> similar_pressure (V * V) qA qB ->
  exact_run mA DA PA OA (convection mA DA) vsA psA a0 k -> exact_run mB DB PB OB (convection mB DB) vsB psB b0 k ->
  exists sA sB, ns_steps mA DA PA OA (convection mA DA) vsA psA k a0 = Ok sA /\ ns_steps mB DB PB OB (convection mB DB) vsB psB k b0 = Ok sB /\
    similar V (s_U sA) (s_U sB) /\ similar_pressure (V * V) (s_p sA) (s_p sB).
Proof.
  intros L V mA mB DA DB types vaA vaB PA PB tA tB nA nB UA qA UB qB OA OB a0 b0 vsA psA vsB psB k HL HV HsA HsB Hb Hd Hper Hw Hva Hdt Hnu HbnA HbnB Hdi Hce Hde Hm Hn Hdt0 Hc HcA HcB Hwalls HIA HIB sim simp HU Hq XA XB.
  assert (Pt : forall n p, frame_point (units L V) n p = p) by (intros n [[i j] l]; reflexivity).
  assert (HbB : bc_fits mB types).
  { intros f loc Hf Hl. rewrite Hd in Hf, Hl. destruct (Hb f loc Hf Hl) as [K1 K2]. split; [exact K1|]. rewrite K2, Hper; [reflexivity|].
    pose proof (mf_dim _ _ (setup_facts _ _ HsA)). unfold loc_dir. split; [apply Z.div_pos|apply Z.div_lt_upper_bound]; lia. }
  assert (Sv : forall x y, framed_velocity (units L V) mA DA mB DB x y <-> sim V x y).
  { intros x y. split.
    - intros H idA idB [f p] EA EB. rewrite (H idA idB f p EB ltac:(rewrite Pt; exact EA)). unfold sign, units. cbn [fr_vel fr_flip]. ring.
    - intros H idA idB f p EB EA. rewrite Pt in EA. rewrite (H idA idB (f, p) EA EB). unfold sign, units. cbn [fr_vel fr_flip]. ring. }
  assert (Sp : forall x y, framed_pressure (units L V) mB DA DB x y <-> simp (V * V) x y).
  { intros x y. split; intros (a & H); exists a.
    - intros idA idB p EA EB. apply (H idA idB p EB). rewrite Pt. exact EA.
    - intros idA idB p EB EA. rewrite Pt in EA. exact (H idA idB p EA EB). }
  destruct (frame_lemma (units L V) mA mB DA DB types types vaA vaB PA PB tA tB nA nB UA qA UB qB OA OB a0 b0 vsA psA vsB psB k HsA HsB Hb HbB) as (sA & sB & EA & EB & RU & Rp); auto.
  - split; [intros; cbn; auto|]. split; [intros; cbn; auto|]. cbn. auto.
  - split; [exact Hd|]. split; [intros d Hd3; cbn; split; [now apply Hper|discriminate]|]. intros d Hdd. destruct (Hw d Hdd) as [E1 E2]. cbn. split; [exact E1|]. intros i Hi. apply E2. rewrite <- E1. exact Hi.
  - intros f loc Hf Hl. rewrite Hd in Hf, Hl. cbn [units fr_axis fr_vel fr_len]. assert (El : frame_loc (units L V) loc = loc) by (unfold frame_loc, loc_dir; cbn [units fr_axis fr_flip]; pose proof (Z.div_mod loc 2 ltac:(lia)); lia).
    rewrite El. split; [reflexivity|]. rewrite (Hva f loc Hf Hl). unfold sign. cbn [units fr_flip]. destruct (types f loc); cbn [bctype_eqb]; auto; ring.
  - repeat split; cbn; auto; congruence.
  - now apply Sv.
  - now apply Sp.
  - exists sA, sB. split; [exact EA|]. split; [exact EB|]. split; [now apply Sv|now apply Sp].
Qed.
Print Assumptions similar_flows.

(** C77. A flow that is symmetric about the middle of direction d, in a case
    that is symmetric too, stays so exactly, pressure included. *)
Theorem mirror_symmetry_kept : forall d m D types values P t0 n0 U0 q0 O s0 vs ps k s,
  mesh_setup m D -> bc_fits m types -> (0 <= d < m_dim m)%Z -> periodic_dir m d = false ->
  (forall i, (0 <= i < m_n m 3 d)%Z -> wid m 3 d i = wid m 3 d (m_n m 3 d - 1 - i)) ->
  framed_bc (mirror d) m types types values values ->
  periodic_min m 3 -> no_normal_neumann m types -> p_bn P = 1%Z -> 0 < p_dt P -> 0 <= p_dimp P * p_nu P ->
  (p_refp P = true -> impermeable m types values) -> impermeable m types values \/ whole_domain m D ->
  ns_init m D P types values t0 n0 U0 q0 = Ok (O, s0) ->
  let reflect n p := setc p d (n d - 1 - pc p d)%Z in
  let symmetric x := forall id id' f p, nthZ (packed_layout (m_dim m) D) id = Some (f, p) -> nthZ (packed_layout (m_dim m) D) id' = Some (f, reflect (m_n m f) p) ->
    x id = if (f =? d)%Z then - x id' else x id' in
  let symmetric_pressure y := forall id id' p, nthZ (field_layout D 3) id = Some p -> nthZ (field_layout D 3) id' = Some (reflect (m_n m 3) p) -> y id = y id' in
  symmetric U0 -> symmetric_pressure q0 ->
  exact_run m D P O (convection m D) vs ps s0 k -> ns_steps m D P O (convection m D) vs ps k s0 = Ok s ->
  symmetric (s_U s) /\ symmetric_pressure (s_p s).
Proof.
  intros d m D types values P t0 n0 U0 q0 O s0 vs ps k s Hs Hb Hd Hper Hw Hbc Hm Hn Hbn Hdt Hc Hcl Hwalls HI refl sym symp HU Hq X E.
  pose proof (setup_facts _ _ Hs) as F. pose proof (mf_dim _ _ F) as Hdim.
  assert (Pt : forall n p, frame_point (mirror d) n p = refl n p).
  { intros n p. apply pt_ext. intros e He. unfold refl. rewrite pc_setc by lia. destruct p as [[i j] l]. unfold frame_point, mirror. cbn [fr_back fr_flip].
    destruct (pt_cases e He) as [->|[->| ->]]; cbn [pc Z.eqb Pos.eqb]; destruct (Z.eqb_spec d 0), (Z.eqb_spec d 1), (Z.eqb_spec d 2); subst; try reflexivity; try lia;
      repeat match goal with |- context [(?a =? ?b)%Z] => destruct (Z.eqb_spec a b); try lia end; reflexivity. }
  assert (Sv : forall x, framed_velocity (mirror d) m D m D x x <-> sym x).
  { intros x. split; intros H id id' f p E1 E2.
    - rewrite (H id' id f p E1 ltac:(rewrite Pt; exact E2)). unfold sign, mirror. cbn [fr_vel fr_flip]. destruct (f =? d)%Z; ring.
    - rewrite Pt in E2. rewrite (H id' id f p E1 E2). unfold sign, mirror. cbn [fr_vel fr_flip]. destruct (f =? d)%Z; ring. }
  assert (RR : forall n p, refl n (refl n p) = p).
  { intros n p. apply pt_ext. intros e He. unfold refl. rewrite !pc_setc by lia. destruct (Z.eqb_spec e d) as [->|]; [rewrite Z.eqb_refl; lia|reflexivity]. }
  assert (Sp : forall y, framed_pressure (mirror d) m D D y y <-> symp y).
  { intros y. split.
    - intros (a & H) id id' p E1 E2. pose proof (H id' id p E1 ltac:(rewrite Pt; exact E2)) as H1. pose proof (H id id' (refl (m_n m 3) p) E2 ltac:(rewrite Pt, RR; exact E1)) as H2.
      cbn [mirror fr_vel] in H1, H2. lra.
    - intros H. exists 0. intros id id' p E1 E2. rewrite Pt in E2. rewrite (H id' id p E1 E2). cbn [mirror fr_vel]. ring. }
  destruct (frame_lemma (mirror d) m m D D types types values values P P t0 t0 n0 n0 U0 q0 U0 q0 O O s0 s0 vs ps vs ps k Hs Hs Hb Hb) as (sA & sB & EA & EB & RU & Rp); auto.
  - split; [intros; cbn; auto|]. split; [intros; cbn; auto|]. cbn. lra.
  - split; [reflexivity|]. split.
    + intros e He. cbn. split; [reflexivity|]. intros Ee. replace e with d by lia. exact Hper.
    + intros e He. cbn. split; [reflexivity|]. intros i Hi. destruct (Z.eqb_spec e d) as [->|]; [rewrite (Hw i Hi)|]; ring.
  - repeat split; cbn; field.
  - destruct Hwalls as [Hi|Hi]; [left; exact Hi|right; auto].
  - now apply Sv.
  - now apply Sp.
  - rewrite E in EA. injection EA as <-. rewrite E in EB. injection EB as <-. split; [now apply Sv|now apply Sp].
Qed.
Print Assumptions mirror_symmetry_kept.

(** * The hypotheses can be met *)
(** The cavity of C62 on its stretched mesh on two ranks, and the same mesh with
    three layers of cells of different widths between planes of symmetry. *)
Definition ext_w (d : Z) : list R := if (d =? 2)%Z then [1; 3; 2] else ex_w d.
Definition ext_mx (d : Z) : R := if (d =? 0)%Z then 7 else 6.
Definition ext_mesh : mesh := ok_or no_mesh (createMeshArrays 3 (fun _ => 0) ext_mx (fun _ _ => false) ext_w).
Definition ext_dec : dec := default_dec (fun _ => 1%Z) (m_n ext_mesh).
Definition ext_types (f loc : Z) : bctype := if (loc <? 4)%Z then DIRICHLET else if (f =? 2)%Z then DIRICHLET else NEUMANN.
Lemma ext_dim : m_dim ext_mesh = 3%Z.
Proof. reflexivity. Qed.
Lemma ext_setup : mesh_setup ext_mesh ext_dec.
Proof.
  exists (fun _ => 0), ext_mx, (fun _ _ => false), ext_w, (fun _ => 1%Z). rewrite !ext_dim.
  split. { split; [right; reflexivity|]. intros d Hd. unfold ext_w, ext_mx, ex_w, positive, GridSpec.total. destruct (pt_cases d Hd) as [->|[->| ->]]; cbn [Z.eqb Pos.eqb]; (split; [discriminate|split; [repeat constructor; lra|simpl; lra]]). }
  split; [reflexivity|]. split; [reflexivity|]. split; [intros d Hd; lia|]. split; reflexivity.
Qed.
Lemma ext_fits : bc_fits ext_mesh ext_types.
Proof.
  intros f loc Hf Hl. unfold ext_types. replace (periodic_dir ext_mesh (loc_dir loc)) with false by reflexivity.
  split; [|split]; destruct (loc <? 4)%Z, (f =? 2)%Z; discriminate.
Qed.
Lemma no_period m : (forall d, periodic_dir m d = false) -> periodic_min m 3.
Proof. intros H f d _ _ E. rewrite H in E. discriminate. Qed.
Lemma lid_closed : impermeable (ex_mesh false false) (box_types false) lid_values.
Proof.
  intros f loc Hf Hl Hlf _. split; [reflexivity|]. unfold lid_values. rewrite ex_dim in Hf.
  destruct (Z.eqb_spec f 0) as [->|N]; [|reflexivity]. destruct (Z.eqb_spec loc 3) as [->|N]; [discriminate|reflexivity].
Qed.
Lemma runs_exist m D P types values : mesh_setup m D -> bc_fits m types -> periodic_min m 3 -> no_normal_neumann m types ->
  0 <= p_dimp P * p_nu P -> 0 < p_dt P -> p_bn P = 1%Z -> p_refp P = true ->
  exists O s0 vs ps, ns_init m D P types values 0 0 (fun _ => 0) (fun _ => 0) = Ok (O, s0) /\ forall k, exact_run m D P O (convection m D) vs ps s0 k.
Proof.
  intros Hs Hb Hm Hn Hc Hdt Hbn Hr. destruct (init_total m D P types values 0 0 (fun _ => 0) (fun _ => 0) (setup_facts _ _ Hs) Hb ltac:(lia)) as (O & s0 & HI).
  destruct (exact_solvers m D P _ _ _ _ _ _ _ _ Hs Hb Hm Hn Hc Hdt Hbn Hr HI) as (vs & ps & X). exists O, s0, vs, ps. auto.
Qed.
Example plane_case : forall k, let mA := ex_mesh false false in let DA := ex_dec false false in let P := mkPar (1/100) 1 1 [3/2; -(1/2)] (1/2) [1/2] true in let z := fun _ : Z => 0 in
  exists OA OB a0 b0 vsA psA vsB psB,
  mesh_setup mA DA /\ mesh_setup ext_mesh ext_dec /\ bc_fits mA (box_types false) /\ bc_fits ext_mesh ext_types /\
  extruded mA ext_mesh /\ extruded_bc ext_mesh (box_types false) ext_types lid_values lid_values /\ same_scheme P P /\
  periodic_min mA 3 /\ periodic_min ext_mesh 3 /\ no_normal_neumann mA (box_types false) /\ 0 < p_dt P /\ 0 <= p_dimp P * p_nu P /\ impermeable mA (box_types false) lid_values /\
  ns_init mA DA P (box_types false) lid_values 0 0 z z = Ok (OA, a0) /\ ns_init ext_mesh ext_dec P ext_types lid_values 0 0 z z = Ok (OB, b0) /\
  plane_velocity mA DA ext_mesh ext_dec z z /\ plane_pressure DA ext_dec z z /\
  exact_run mA DA P OA (convection mA DA) vsA psA a0 k /\ exact_run ext_mesh ext_dec P OB (convection ext_mesh ext_dec) vsB psB b0 k.
Proof.
  intros k mA DA P z. pose proof (ex_setup false false) as HsA. pose proof (box_fits false) as HbA. 
  assert (HmA : periodic_min mA 3) by (intros f d Hf Hd Hp; exfalso; unfold mA in Hp, Hd; rewrite ex_dim in Hd; assert (d = 0 \/ d = 1)%Z as [->| ->] by lia; vm_compute in Hp; discriminate).
  assert (HmB : periodic_min ext_mesh 3) by (apply no_period; reflexivity).
  pose proof (impermeable_neumann mA _ _ HbA lid_closed) as HnA.
  assert (HnB : no_normal_neumann ext_mesh ext_types) by (intros f Hf; rewrite ext_dim in Hf; assert (f = 0 \/ f = 1 \/ f = 2)%Z as [->|[->| ->]] by lia; split; discriminate).
  assert (Hdt : 0 < p_dt P) by (cbn; lra). assert (Hc : 0 <= p_dimp P * p_nu P) by (cbn; lra).
  destruct (runs_exist mA DA P _ lid_values HsA HbA HmA HnA Hc Hdt eq_refl eq_refl) as (OA & a0 & vsA & psA & HIA & XA).
  destruct (runs_exist ext_mesh ext_dec P _ lid_values ext_setup ext_fits HmB HnB Hc Hdt eq_refl eq_refl) as (OB & b0 & vsB & psB & HIB & XB).
  exists OA, OB, a0, b0, vsA, psA, vsB, psB. split; [exact HsA|]. split; [exact ext_setup|]. split; [exact HbA|]. split; [exact ext_fits|].
  split. { split; [reflexivity|]. split; [reflexivity|]. intros d Hd. split; [assert (d = 0 \/ d = 1)%Z as [->| ->] by lia; reflexivity|].
    split; [assert (d = 0 \/ d = 1)%Z as [->| ->] by lia; reflexivity|]. intros i Hi. unfold mA in *.
    assert (d = 0 \/ d = 1)%Z as [->| ->] by lia; [change (m_n (ex_mesh false false) 3 0) with 4%Z in Hi; assert (i = 0 \/ i = 1 \/ i = 2 \/ i = 3)%Z as [->|[->|[->| ->]]] by lia; reflexivity|].
    change (m_n (ex_mesh false false) 3 1) with 3%Z in Hi; assert (i = 0 \/ i = 1 \/ i = 2)%Z as [->|[->| ->]] by lia; reflexivity. }
  split. { split; [intros f loc Hf Hl; split; [|reflexivity]; unfold ext_types, box_types; destruct (Z.ltb_spec loc 4); [reflexivity|lia]|].
    split; [intros loc Hl; right; reflexivity|]. intros _ loc Hl. unfold ext_types, lid_values. destruct (Z.ltb_spec loc 4); [lia|]. destruct (Z.eqb_spec loc 3); [lia|].
    split; [split; reflexivity|]. intros f Hf. destruct (Z.eqb_spec f 2); [lia|]. split; [reflexivity|]. rewrite Bool.andb_false_r. reflexivity. }
  split; [repeat split|]. split; [exact HmA|]. split; [exact HmB|]. split; [exact HnA|]. split; [exact Hdt|]. split; [exact Hc|]. split; [exact lid_closed|].
  split; [exact HIA|]. split; [exact HIB|]. split; [split; intros; reflexivity|]. split; [exists 0; intros; unfold z; ring|]. split; [apply XA|apply XB].
Qed.

(** The cavity turned by 90 degrees, twice as large and three times as fast, on
    one rank: the wall on its left moves. *)
Definition turned : frame := mkFrame (fun d => if (d =? 0)%Z then 1%Z else if (d =? 1)%Z then 0%Z else d) (fun d => if (d =? 0)%Z then 1%Z else if (d =? 1)%Z then 0%Z else d) (fun d => (d =? 0)%Z) 2 3.
Definition turn_w (d : Z) : list R := if (d =? 0)%Z then [6; 4; 2] else [2; 4; 2; 6].
Definition turn_mx (d : Z) : R := if (d =? 0)%Z then 12 else 14.
Definition turn_mesh : mesh := ok_or no_mesh (createMeshArrays 2 (fun _ => 0) turn_mx (fun _ _ => false) turn_w).
Definition turn_dec : dec := default_dec (fun _ => 1%Z) (m_n turn_mesh).
Definition turn_values (f loc : Z) : R := if ((f =? 1) && (loc =? 0))%Z then 3 else 0.
Lemma turn_setup : mesh_setup turn_mesh turn_dec.
Proof.
  exists (fun _ => 0), turn_mx, (fun _ _ => false), turn_w, (fun _ => 1%Z). replace (m_dim turn_mesh) with 2%Z by reflexivity.
  split. { split; [left; reflexivity|]. intros d Hd. unfold turn_w, turn_mx, positive, GridSpec.total. destruct (Z.eqb_spec d 0); (split; [discriminate|split; [repeat constructor; lra|simpl; lra]]). }
  split; [reflexivity|]. split; [reflexivity|]. split; [intros d Hd; lia|]. split; reflexivity.
Qed.
Example frame_case : forall k, let mA := ex_mesh false false in let DA := ex_dec false false in let PA := mkPar (1/100) 1 1 [3/2; -(1/2)] (1/2) [1/2] true in let z := fun _ : Z => 0 in
  let PB := mkPar (2/300) 6 1 [3/2; -(1/2)] (1/2) [1/2] true in let ty := box_types false in
  exists OA OB a0 b0 vsA psA vsB psB,
  mesh_setup mA DA /\ mesh_setup turn_mesh turn_dec /\ bc_fits mA ty /\ bc_fits turn_mesh ty /\
  frame_ok (m_dim mA) turned /\ framed turned mA turn_mesh /\ framed_bc turned turn_mesh ty ty lid_values turn_values /\ framed_scheme turned PA PB /\
  periodic_min mA 3 /\ no_normal_neumann mA ty /\ 0 < p_dt PA /\ 0 <= p_dimp PA * p_nu PA /\ impermeable mA ty lid_values /\
  ns_init mA DA PA ty lid_values 0 0 z z = Ok (OA, a0) /\ ns_init turn_mesh turn_dec PB ty turn_values 0 0 z z = Ok (OB, b0) /\
  framed_velocity turned mA DA turn_mesh turn_dec z z /\ framed_pressure turned turn_mesh DA turn_dec z z /\
  exact_run mA DA PA OA (convection mA DA) vsA psA a0 k /\ exact_run turn_mesh turn_dec PB OB (convection turn_mesh turn_dec) vsB psB b0 k.
Proof.
  intros k mA DA PA z PB ty. pose proof (ex_setup false false) as HsA. pose proof (box_fits false) as HbA.
  assert (HmA : periodic_min mA 3) by (intros f d Hf Hd Hp; exfalso; unfold mA in Hp, Hd; rewrite ex_dim in Hd; assert (d = 0 \/ d = 1)%Z as [->| ->] by lia; vm_compute in Hp; discriminate).
  assert (HmB : periodic_min turn_mesh 3) by (apply no_period; reflexivity).
  pose proof (impermeable_neumann mA _ _ HbA lid_closed) as HnA.
  assert (HbB : bc_fits turn_mesh ty) by (intros f loc Hf Hl; replace (periodic_dir turn_mesh (loc_dir loc)) with false by reflexivity; split; [discriminate|split; discriminate]).
  assert (HnB : no_normal_neumann turn_mesh ty) by (intros f Hf; split; discriminate).
  assert (Hdt : 0 < p_dt PA) by (cbn; lra). assert (Hc : 0 <= p_dimp PA * p_nu PA) by (cbn; lra).
  destruct (runs_exist mA DA PA _ lid_values HsA HbA HmA HnA Hc Hdt eq_refl eq_refl) as (OA & a0 & vsA & psA & HIA & XA).
  destruct (runs_exist turn_mesh turn_dec PB _ turn_values turn_setup HbB HmB HnB ltac:(cbn; lra) ltac:(cbn; lra) eq_refl eq_refl) as (OB & b0 & vsB & psB & HIB & XB).
  exists OA, OB, a0, b0, vsA, psA, vsB, psB. split; [exact HsA|]. split; [exact turn_setup|]. split; [exact HbA|]. split; [exact HbB|].
  split. { unfold mA. rewrite ex_dim. split; [intros d Hd; destruct (pt_cases d Hd) as [->|[->| ->]]; cbn; lia|].
    split; [intros d Hd; assert (d = 0 \/ d = 1)%Z as [->| ->] by lia; cbn; lia|]. cbn. lra. }
  split. { split; [reflexivity|]. split; [intros d Hd; destruct (pt_cases d Hd) as [->|[->| ->]]; split; reflexivity|].
    unfold mA. rewrite ex_dim. intros d Hd. assert (d = 0 \/ d = 1)%Z as [->| ->] by lia; (split; [reflexivity|]); intros i Hi.
    - change (m_n turn_mesh 3 0) with 3%Z in *. assert (i = 0 \/ i = 1 \/ i = 2)%Z as [->|[->| ->]] by lia.
      + change (6 = 2 * 3). ring. + change (4 = 2 * 2). ring. + change (2 = 2 * 1). ring.
    - change (m_n turn_mesh 3 1) with 4%Z in *. assert (i = 0 \/ i = 1 \/ i = 2 \/ i = 3)%Z as [->|[->|[->| ->]]] by lia.
      + change (2 = 2 * 1). ring. + change (4 = 2 * 2). ring. + change (2 = 2 * 1). ring. + change (6 = 2 * 3). ring. }
  split. { intros f loc Hf Hl. change (m_dim turn_mesh) with 2%Z in *. split; [reflexivity|]. unfold ty, box_types, turn_values, lid_values, sign, turned. cbn [fr_axis fr_flip fr_vel].
    assert (f = 0 \/ f = 1)%Z as [->| ->] by lia; assert (loc = 0 \/ loc = 1 \/ loc = 2 \/ loc = 3)%Z as [->|[->|[->| ->]]] by lia; cbn; ring. }
  split; [repeat split; cbn; field|]. split; [exact HmA|]. split; [exact HnA|]. split; [exact Hdt|]. split; [exact Hc|]. split; [exact lid_closed|].
  split; [exact HIA|]. split; [exact HIB|]. split; [intros idA idB f p _ _; unfold z; ring|]. split; [exists 0; intros; unfold z; ring|]. split; [apply XA|apply XB].
Qed.

(** A box whose two side walls move upwards together. *)
Definition sym_w (d : Z) : list R := if (d =? 0)%Z then [1; 2; 1] else [1; 2; 3].
Definition sym_mx (d : Z) : R := if (d =? 0)%Z then 4 else 6.
Definition sym_mesh : mesh := ok_or no_mesh (createMeshArrays 2 (fun _ => 0) sym_mx (fun _ _ => false) sym_w).
Definition sym_dec : dec := default_dec (fun d => if (d =? 0)%Z then 2%Z else 1%Z) (m_n sym_mesh).
Definition sym_values (f loc : Z) : R := if ((f =? 1) && (loc <? 2))%Z then 1 else 0.
Lemma sym_setup : mesh_setup sym_mesh sym_dec.
Proof.
  exists (fun _ => 0), sym_mx, (fun _ _ => false), sym_w, (fun d => if (d =? 0)%Z then 2%Z else 1%Z). replace (m_dim sym_mesh) with 2%Z by reflexivity.
  split. { split; [left; reflexivity|]. intros d Hd. unfold sym_w, sym_mx, positive, GridSpec.total. destruct (Z.eqb_spec d 0); (split; [discriminate|split; [repeat constructor; lra|simpl; lra]]). }
  split; [reflexivity|]. split; [reflexivity|]. split; [intros d Hd; destruct (Z.eqb_spec d 0); lia|]. split; reflexivity.
Qed.
Example mirror_case : forall k, let P := mkPar (1/100) 1 1 [3/2; -(1/2)] (1/2) [1/2] true in let z := fun _ : Z => 0 in let ty := box_types false in
  exists O s0 vs ps s, mesh_setup sym_mesh sym_dec /\ bc_fits sym_mesh ty /\ periodic_dir sym_mesh 0 = false /\
  (forall i, (0 <= i < m_n sym_mesh 3 0)%Z -> wid sym_mesh 3 0 i = wid sym_mesh 3 0 (m_n sym_mesh 3 0 - 1 - i)) /\
  framed_bc (mirror 0) sym_mesh ty ty sym_values sym_values /\ periodic_min sym_mesh 3 /\ no_normal_neumann sym_mesh ty /\ impermeable sym_mesh ty sym_values /\
  ns_init sym_mesh sym_dec P ty sym_values 0 0 z z = Ok (O, s0) /\
  exact_run sym_mesh sym_dec P O (convection sym_mesh sym_dec) vs ps s0 k /\ ns_steps sym_mesh sym_dec P O (convection sym_mesh sym_dec) vs ps k s0 = Ok s.
Proof.
  intros k P z ty.
  assert (Hb : bc_fits sym_mesh ty) by (intros f loc Hf Hl; replace (periodic_dir sym_mesh (loc_dir loc)) with false by reflexivity; split; [discriminate|split; discriminate]).
  assert (Hm : periodic_min sym_mesh 3) by (apply no_period; reflexivity). assert (Hn : no_normal_neumann sym_mesh ty) by (intros f Hf; split; discriminate).
  destruct (runs_exist sym_mesh sym_dec P _ sym_values sym_setup Hb Hm Hn ltac:(cbn; lra) ltac:(cbn; lra) eq_refl eq_refl) as (O & s0 & vs & ps & HI & X).
  destruct (steps_total sym_mesh sym_dec P ty sym_values (setup_facts _ _ sym_setup) Hb (convection sym_mesh sym_dec) vs ps 0 0%Z z z O s0 k HI) as (s & E); [intros; eapply convection_total; eauto using sym_setup|].
  exists O, s0, vs, ps, s. split; [exact sym_setup|]. split; [exact Hb|]. split; [reflexivity|].
  split. { intros i Hi. change (m_n sym_mesh 3 0) with 3%Z in *. assert (i = 0 \/ i = 1 \/ i = 2)%Z as [->|[->| ->]] by lia; reflexivity. }
  split. { intros f loc Hf Hl. change (m_dim sym_mesh) with 2%Z in *. split; [reflexivity|]. unfold ty, box_types, sym_values, sign, mirror. cbn [fr_axis fr_flip fr_vel].
    assert (f = 0 \/ f = 1)%Z as [->| ->] by lia; assert (loc = 0 \/ loc = 1 \/ loc = 2 \/ loc = 3)%Z as [->|[->|[->| ->]]] by lia; cbn; ring. }
  split; [exact Hm|]. split; [exact Hn|].
  split. { intros f loc Hf Hl Hlf _. split; [reflexivity|]. unfold sym_values. destruct (Z.eqb_spec f 1) as [->|N]; [|reflexivity]. destruct (Z.ltb_spec loc 2); [|reflexivity].
    rewrite (Z.div_small loc 2) in Hlf by lia. discriminate. }
  split; [exact HI|]. split; [apply X|exact E].
Qed.

(** The cavity twice as large, with a lid three times as fast and a viscosity
    six times as large, on one rank. *)
Definition twice_w (d : Z) : list R := if (d =? 0)%Z then [2; 4; 2; 6] else [2; 4; 6].
Definition twice_mx (d : Z) : R := if (d =? 0)%Z then 14 else 12.
Definition twice_mesh : mesh := ok_or no_mesh (createMeshArrays 2 (fun _ => 0) twice_mx (fun _ _ => false) twice_w).
Definition twice_dec : dec := default_dec (fun _ => 1%Z) (m_n twice_mesh).
Lemma twice_setup : mesh_setup twice_mesh twice_dec.
Proof.
  exists (fun _ => 0), twice_mx, (fun _ _ => false), twice_w, (fun _ => 1%Z). replace (m_dim twice_mesh) with 2%Z by reflexivity.
  split. { split; [left; reflexivity|]. intros d Hd. unfold twice_w, twice_mx, positive, GridSpec.total. destruct (Z.eqb_spec d 0); (split; [discriminate|split; [repeat constructor; lra|simpl; lra]]). }
  split; [reflexivity|]. split; [reflexivity|]. split; [intros d Hd; lia|]. split; reflexivity.
Qed.
Example similar_case : forall k, let mA := ex_mesh false false in let DA := ex_dec false false in let PA := mkPar (1/100) 1 1 [3/2; -(1/2)] (1/2) [1/2] true in let z := fun _ : Z => 0 in
  let PB := mkPar (2/300) 6 1 [3/2; -(1/2)] (1/2) [1/2] true in let ty := box_types false in let vaB := fun f loc => 3 * lid_values f loc in
  exists OA OB a0 b0 vsA psA vsB psB,
  mesh_setup mA DA /\ mesh_setup twice_mesh twice_dec /\ bc_fits mA ty /\ m_dim twice_mesh = m_dim mA /\ (forall d, (0 <= d < 3)%Z -> periodic_dir twice_mesh d = periodic_dir mA d) /\
  (forall d, (0 <= d < m_dim mA)%Z -> m_n twice_mesh 3 d = m_n mA 3 d /\ forall i, (0 <= i < m_n mA 3 d)%Z -> wid twice_mesh 3 d i = 2 * wid mA 3 d i) /\
  (forall f loc, (0 <= f < m_dim mA)%Z -> (0 <= loc < m_dim mA * 2)%Z -> vaB f loc = (if bctype_eqb (ty f loc) NEUMANN then 3 / 2 else 3) * lid_values f loc) /\
  p_dt PB = 2 / 3 * p_dt PA /\ p_nu PB = 2 * 3 * p_nu PA /\ periodic_min mA 3 /\ no_normal_neumann mA ty /\ 0 < p_dt PA /\ 0 <= p_dimp PA * p_nu PA /\ impermeable mA ty lid_values /\
  ns_init mA DA PA ty lid_values 0 0 z z = Ok (OA, a0) /\ ns_init twice_mesh twice_dec PB ty vaB 0 0 z z = Ok (OB, b0) /\
  exact_run mA DA PA OA (convection mA DA) vsA psA a0 k /\ exact_run twice_mesh twice_dec PB OB (convection twice_mesh twice_dec) vsB psB b0 k.
Proof.
  intros k mA DA PA z PB ty vaB. pose proof (ex_setup false false) as HsA. pose proof (box_fits false) as HbA.
  assert (HmA : periodic_min mA 3) by (intros f d Hf Hd Hp; exfalso; unfold mA in Hp, Hd; rewrite ex_dim in Hd; assert (d = 0 \/ d = 1)%Z as [->| ->] by lia; vm_compute in Hp; discriminate).
  assert (HmB : periodic_min twice_mesh 3) by (apply no_period; reflexivity).
  pose proof (impermeable_neumann mA _ _ HbA lid_closed) as HnA.
  assert (HbB : bc_fits twice_mesh ty) by (intros f loc Hf Hl; replace (periodic_dir twice_mesh (loc_dir loc)) with false by reflexivity; split; [discriminate|split; discriminate]).
  assert (HnB : no_normal_neumann twice_mesh ty) by (intros f Hf; split; discriminate).
  assert (Hdt : 0 < p_dt PA) by (cbn; lra). assert (Hc : 0 <= p_dimp PA * p_nu PA) by (cbn; lra).
  destruct (runs_exist mA DA PA _ lid_values HsA HbA HmA HnA Hc Hdt eq_refl eq_refl) as (OA & a0 & vsA & psA & HIA & XA).
  destruct (runs_exist twice_mesh twice_dec PB _ vaB twice_setup HbB HmB HnB ltac:(cbn; lra) ltac:(cbn; lra) eq_refl eq_refl) as (OB & b0 & vsB & psB & HIB & XB).
  exists OA, OB, a0, b0, vsA, psA, vsB, psB. split; [exact HsA|]. split; [exact twice_setup|]. split; [exact HbA|]. split; [reflexivity|].
  split; [intros d Hd; destruct (pt_cases d Hd) as [->|[->| ->]]; reflexivity|].
  split. { unfold mA. rewrite ex_dim. intros d Hd. assert (d = 0 \/ d = 1)%Z as [->| ->] by lia; (split; [reflexivity|]); intros i Hi.
    - change (m_n (ex_mesh false false) 3 0) with 4%Z in *. assert (i = 0 \/ i = 1 \/ i = 2 \/ i = 3)%Z as [->|[->|[->| ->]]] by lia.
      + change (2 = 2 * 1). ring. + change (4 = 2 * 2). ring. + change (2 = 2 * 1). ring. + change (6 = 2 * 3). ring.
    - change (m_n (ex_mesh false false) 3 1) with 3%Z in *. assert (i = 0 \/ i = 1 \/ i = 2)%Z as [->|[->| ->]] by lia.
      + change (2 = 2 * 1). ring. + change (4 = 2 * 2). ring. + change (6 = 2 * 3). ring. }
  split; [intros; reflexivity|]. split; [cbn; field|]. split; [cbn; ring|]. split; [exact HmA|]. split; [exact HnA|]. split; [exact Hdt|]. split; [exact Hc|]. split; [exact lid_closed|].
  split; [exact HIA|]. split; [exact HIB|]. split; [apply XA|apply XB].
Qed.
