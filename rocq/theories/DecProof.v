(** Two runs on two decompositions. *)
From Coq Require Import Lia ZifyBool Permutation.
From Verif Require Import Prelude ZSum RSum TypesModel GridModel GridSpec GridProof MeshProof
  IndexModel IndexSpec IndexProof BoundaryModel BoundarySpec BoundaryProof OperatorModel OperatorSpec OperatorProof BStateProof LapProof DivProof GradProof
  AdjProof SymProof MatModel BnModel NSModel NSSpec NSProof NSPin ConvModel ConvSpec ConvTotal LinAlg UniqueProof RestartProof DecSpec.
Local Open Scope R_scope.

(** * Numberings *)
(** [i] numbers the elements of S from 0 to n - 1; [k] is its inverse. *)
Definition numbering {K} (n : Z) (S : K -> Prop) (i : K -> Z) (k : Z -> K) : Prop :=
  (forall x, S x -> (0 <= i x < n)%Z /\ k (i x) = x) /\ (forall c, (0 <= c < n)%Z -> S (k c) /\ i (k c) = c).
Definition vrel {K} (S : K -> Prop) (i1 i2 : K -> Z) (x1 x2 : vec) : Prop := forall k, S k -> x1 (i1 k) = x2 (i2 k).
Definition mrel {K L} (S : K -> Prop) (i1 i2 : K -> Z) (T : L -> Prop) (j1 j2 : L -> Z) (A1 A2 : mat) : Prop :=
  forall k l, S k -> T l -> A1 (i1 k) (j1 l) = A2 (i2 k) (j2 l).

Lemma numbering_sum {K} n (S : K -> Prop) i1 k1 i2 k2 (F1 F2 : Z -> R) : numbering n S i1 k1 -> numbering n S i2 k2 ->
  (forall x, S x -> F1 (i1 x) = F2 (i2 x)) -> zsum F1 0 n = zsum F2 0 n.
Proof.
  intros [A1 B1] [A2 B2] H. unfold zsum.
  transitivity (sumR F2 (map (fun c => i2 (k1 c)) (zrange 0 n))).
  - rewrite sumR_map. apply sumR_ext. intros c Hc. apply zrange_In in Hc. destruct (B1 c Hc) as [Sc Ec]. rewrite <- (H _ Sc). now rewrite Ec.
  - apply sumR_perm. apply NoDup_Permutation_bis.
    + assert (N : NoDup (zrange 0 n)) by apply zrange_NoDup. revert N.
      assert (I : forall c, In c (zrange 0 n) -> (0 <= c < n)%Z) by (intros c; apply zrange_In). revert I. generalize (zrange 0 n).
      induction l as [|a t IH]; intros I N; [constructor|]. inversion N; subst. cbn [map]. constructor; [|apply IH; auto; intros; apply I; now right].
      intros Hin. apply in_map_iff in Hin. destruct Hin as (b & E & Hb).
      destruct (B1 a (I a (or_introl eq_refl))) as [Sa Ea]. destruct (B1 b (I b (or_intror Hb))) as [Sb Eb].
      destruct (A2 _ Sa) as [_ Ka]. destruct (A2 _ Sb) as [_ Kb]. rewrite E in Kb. rewrite Ka in Kb. rewrite <- Ea, Kb, Eb in H2. contradiction.
    + now rewrite map_length.
    + intros c Hc. apply in_map_iff in Hc. destruct Hc as (b & <- & Hb). apply zrange_In in Hb. apply zrange_In. destruct (B1 b Hb) as [Sb _]. apply A2, Sb.
Qed.
Lemma mr_mvec {K L} n (S : K -> Prop) i1 i2 (T : L -> Prop) j1 l1 j2 l2 A1 A2 x1 x2 : numbering n T j1 l1 -> numbering n T j2 l2 ->
  mrel S i1 i2 T j1 j2 A1 A2 -> vrel T j1 j2 x1 x2 -> vrel S i1 i2 (mvec n A1 x1) (mvec n A2 x2).
Proof. intros N1 N2 HA Hx k Hk. unfold mvec. apply (numbering_sum n T j1 l1 j2 l2); auto. intros l Hl. now rewrite HA, (Hx l Hl). Qed.
Lemma mr_mmul {K L M} n (S : K -> Prop) i1 i2 (T : L -> Prop) j1 l1 j2 l2 (U : M -> Prop) o1 o2 A1 A2 B1 B2 : numbering n T j1 l1 -> numbering n T j2 l2 ->
  mrel S i1 i2 T j1 j2 A1 A2 -> mrel T j1 j2 U o1 o2 B1 B2 -> mrel S i1 i2 U o1 o2 (mmul n A1 B1) (mmul n A2 B2).
Proof. intros N1 N2 HA HB k u Hk Hu. unfold mmul. apply (numbering_sum n T j1 l1 j2 l2); auto. intros l Hl. now rewrite HA, HB. Qed.
Lemma mr_scale {K L} (S : K -> Prop) i1 i2 (T : L -> Prop) j1 j2 a A1 A2 : mrel S i1 i2 T j1 j2 A1 A2 -> mrel S i1 i2 T j1 j2 (mscale a A1) (mscale a A2).
Proof. intros H k l Hk Hl. unfold mscale. now rewrite H. Qed.
Lemma mr_axpy {K L} (S : K -> Prop) i1 i2 (T : L -> Prop) j1 j2 a A1 A2 B1 B2 : mrel S i1 i2 T j1 j2 A1 A2 -> mrel S i1 i2 T j1 j2 B1 B2 ->
  mrel S i1 i2 T j1 j2 (maxpy B1 a A1) (maxpy B2 a A2).
Proof. intros H H' k l Hk Hl. unfold maxpy. now rewrite H, H'. Qed.
Lemma numbering_eqb {K} n (S : K -> Prop) i1 k1 i2 k2 x y : numbering n S i1 k1 -> numbering n S i2 k2 -> S x -> S y -> (i1 x =? i1 y)%Z = (i2 x =? i2 y)%Z.
Proof.
  intros [A1 _] [A2 _] Hx Hy. destruct (A1 x Hx) as [_ X1], (A1 y Hy) as [_ Y1], (A2 x Hx) as [_ X2], (A2 y Hy) as [_ Y2].
  destruct (Z.eqb_spec (i1 x) (i1 y)) as [E|E], (Z.eqb_spec (i2 x) (i2 y)) as [E'|E']; auto; exfalso; [apply E'|apply E]; congruence.
Qed.
Lemma mr_shift {K} n (S : K -> Prop) i1 k1 i2 k2 a A1 A2 : numbering n S i1 k1 -> numbering n S i2 k2 ->
  mrel S i1 i2 S i1 i2 A1 A2 -> mrel S i1 i2 S i1 i2 (mshift A1 a) (mshift A2 a).
Proof. intros N1 N2 H k l Hk Hl. unfold mshift. now rewrite H, (numbering_eqb n S i1 k1 i2 k2 k l N1 N2). Qed.
Lemma mr_power {K} n (S : K -> Prop) i1 k1 i2 k2 A1 A2 t : numbering n S i1 k1 -> numbering n S i2 k2 ->
  mrel S i1 i2 S i1 i2 A1 A2 -> mrel S i1 i2 S i1 i2 (bn_power n A1 A1 t) (bn_power n A2 A2 t).
Proof.
  intros N1 N2 H. unfold bn_power. assert (G : forall l B1 B2, mrel S i1 i2 S i1 i2 B1 B2 -> mrel S i1 i2 S i1 i2
      (fold_left (fun r (_ : Z) => mmul n A1 r) l B1) (fold_left (fun r (_ : Z) => mmul n A2 r) l B2)).
  { induction l as [|a l IH]; intros B1 B2 HB; [exact HB|]. cbn [fold_left]. apply IH. now apply (mr_mmul n S i1 i2 S i1 k1 i2 k2). }
  now apply G.
Qed.
Lemma mr_bn {K} n (S : K -> Prop) i1 k1 i2 k2 A1 A2 dt c o B1 B2 : numbering n S i1 k1 -> numbering n S i2 k2 ->
  mrel S i1 i2 S i1 i2 A1 A2 -> createBnHead n A1 dt c o = Ok B1 -> createBnHead n A2 dt c o = Ok B2 -> mrel S i1 i2 S i1 i2 B1 B2.
Proof.
  intros N1 N2 H. unfold createBnHead. destruct (o <? 1)%Z; [discriminate|].
  assert (H0 : mrel S i1 i2 S i1 i2 (mshift mzero dt) (mshift mzero dt)) by (apply (mr_shift n S i1 k1 i2 k2); auto; intros k l _ _; reflexivity).
  destruct (o =? 1)%Z; intros E1 E2; injection E1 as <-; injection E2 as <-; [exact H0|].
  revert H0. generalize (mshift mzero dt) at 1 3. generalize (mshift mzero dt). generalize (zrange 2 (o + 1)).
  induction l as [|t l IH]; intros B2 B1 HB; [exact HB|]. cbn [fold_left]. apply IH. apply mr_axpy; auto. now apply (mr_power n S i1 k1 i2 k2).
Qed.
(** A solution in one numbering is one in the other. *)
Lemma solves_transport {K} n (S : K -> Prop) i1 k1 i2 k2 A1 A2 x1 b1 b2 : numbering n S i1 k1 -> numbering n S i2 k2 ->
  mrel S i1 i2 S i1 i2 A1 A2 -> vrel S i1 i2 b1 b2 -> solves n A1 x1 b1 -> solves n A2 (fun c => x1 (i1 (k2 c))) b2.
Proof.
  intros N1 N2 HA Hb Hs c Hc. destruct N2 as [A2' B2']. destruct (B2' c Hc) as [Sc Ec]. rewrite <- Ec. rewrite <- (Hb _ Sc), <- (Hs (i1 (k2 c))) by (apply N1; auto).
  symmetry. apply (mr_mvec n S i1 i2 S i1 k1 i2 k2); auto; [split; auto|]. intros k Hk. destruct (A2' k Hk) as [_ ->]. reflexivity.
Qed.

(** * Velocities and pressures *)
Section Two.
Context (m : mesh) (D1 D2 : dec) (types : Z -> Z -> bctype) (values : Z -> Z -> R).
Hypothesis Hs1 : mesh_setup m D1.
Hypothesis Hs2 : mesh_setup m D2.
Hypothesis Hb : bc_fits m types.
Hypothesis Hmin : periodic_min m 3.
Hypothesis Hnn : no_normal_neumann m types.
Let F1 := setup_facts _ _ Hs1.
Let F2 := setup_facts _ _ Hs2.

Definition SV (k : Z * pt) : Prop := (0 <= fst k < m_dim m)%Z /\ interior (m_n m (fst k)) (snd k).
Definition iv (D : dec) (k : Z * pt) : Z := idx m D (fst k) (snd k).
Definition kv (D : dec) (c : Z) : Z * pt := match nthZ (packed_layout (m_dim m) D) c with Some k => k | None => (0%Z, (0, 0, 0)%Z) end.
Definition SP (p : pt) : Prop := interior (m_n m 3) p.
Definition ip (D : dec) (p : pt) : Z := idx m D 3 p.
Definition kp (D : dec) (c : Z) : pt := match nthZ (field_layout D 3) c with Some k => k | None => (0, 0, 0)%Z end.
Lemma numV D : mfacts m D -> numbering (n_velocity m) SV (iv D) (kv D).
Proof.
  intros F. split.
  - intros [f p] [Hf Hp]. cbn [fst snd] in *. split; [now apply idx_range|]. unfold kv, iv. cbn [fst snd]. now rewrite (proj2 (idx_spec m D f p F Hf Hp)).
  - intros c Hc. destruct (velocity_ids m D c F Hc) as (f & p & E). destruct (velocity_row m D c f p F E) as (Hf & Hp & Ei & _). unfold kv. rewrite E.
    split; [split; auto|]. unfold iv. now cbn [fst snd].
Qed.
Lemma numP D : mfacts m D -> numbering (n_pressure m) SP (ip D) (kp D).
Proof.
  intros F. split.
  - intros p Hp. split; [now apply pidx_range|]. unfold kp, ip. now rewrite (proj2 (pidx_spec m D p F Hp)).
  - intros c Hc. destruct (pressure_ids m D c F Hc) as (p & E). destruct (pressure_row m D c p F E) as (Hp & Ei & _). unfold kp. rewrite E. split; auto.
Qed.
Definition vv := vrel SV (iv D1) (iv D2).
Definition pp := vrel SP (ip D1) (ip D2).
Lemma vv_same x1 x2 : same_velocity m D1 D2 x1 x2 <-> vv x1 x2.
Proof.
  split.
  - intros H [f p] [Hf Hp]. cbn [fst snd] in *. unfold iv. cbn [fst snd].
    exact (H _ _ f p (proj2 (idx_spec m D1 f p F1 Hf Hp)) (proj2 (idx_spec m D2 f p F2 Hf Hp))).
  - intros H i1 i2 f p E1 E2. destruct (velocity_row m D1 i1 f p F1 E1) as (Hf & Hp & -> & _). destruct (velocity_row m D2 i2 f p F2 E2) as (_ & _ & -> & _).
    exact (H (f, p) (conj Hf Hp)).
Qed.
Lemma pp_same x1 x2 : same_pressure D1 D2 x1 x2 <-> pp x1 x2.
Proof.
  split.
  - intros H p Hp. exact (H _ _ p (proj2 (pidx_spec m D1 p F1 Hp)) (proj2 (pidx_spec m D2 p F2 Hp))).
  - intros H i1 i2 p E1 E2. destruct (pressure_row m D1 i1 p F1 E1) as (Hp & -> & _). destruct (pressure_row m D2 i2 p F2 E2) as (_ & -> & _). exact (H p Hp).
Qed.

(** * The operators *)
Lemma min2 : periodic_min m 2.
Proof. intros f d Hf Hd Hp. specialize (Hmin f d Hf Hd Hp). lia. Qed.
Lemma lap_entry_any D h0 f p g q : mfacts m D -> has_ics h0 -> SV (f, p) -> SV (g, q) ->
  entry (op_log (op_of m D types values (lap_rows m D) h0)) (idx m D f p) (idx m D g q)
  = let w := fun p' => indicator ((f =? g)%Z && pt_eqb p' q) in
    zsum (fun d => lapm m f p d * (hneigh m types f w p d (-1) - w p) + lapp m f p d * (hneigh m types f w p d 1 - w p)) 0 (m_dim m).
Proof.
  intros F Hi [Hf Hp] [Hg Hq]. cbn [fst snd] in *. rewrite (entry_mult _ (n_velocity m)) by now apply idx_range.
  cbv zeta. apply (lap_row m D types values h0 f p (delta (idx m D g q))); auto. intros q' Hq'. rewrite delta_idx by auto. reflexivity.
Qed.
Lemma lap_rel h1 h2 : has_ics h1 -> has_ics h2 -> mrel SV (iv D1) (iv D2) SV (iv D1) (iv D2)
  (entry (op_log (op_of m D1 types values (lap_rows m D1) h1))) (entry (op_log (op_of m D2 types values (lap_rows m D2) h2))).
Proof. intros H1 H2 [f p] [g q] Hk Hl. unfold iv. cbn [fst snd]. now rewrite !lap_entry_any by auto. Qed.
Lemma div_rel h1 h2 : has_ics h1 -> has_ics h2 -> mrel SP (ip D1) (ip D2) SV (iv D1) (iv D2)
  (entry (op_log (op_of m D1 types values (div_rows m D1 false) h1))) (entry (op_log (op_of m D2 types values (div_rows m D2 false) h2))).
Proof.
  intros H1 H2 p [f q] Hp [Hf Hq]. cbn [fst snd] in *. unfold ip, iv. cbn [fst snd]. destruct (Hnn f Hf) as [T0 T1].
  rewrite !div_entry by (auto; exact min2). reflexivity.
Qed.
Lemma grad_rel : mrel SV (iv D1) (iv D2) SP (ip D1) (ip D2) (entry (asm_ins (nranks D1) (grad_rows m D1 false))) (entry (asm_ins (nranks D2) (grad_rows m D2 false))).
Proof. intros [f q] p [Hf Hq] Hp. cbn [fst snd] in *. unfold ip, iv. cbn [fst snd]. rewrite !grad_entry by (auto; exact min2). reflexivity. Qed.

(** The first pressure unknown is the first cell. *)
Lemma first_cell D : mesh_setup m D -> ip D (0, 0, 0)%Z = 0%Z /\ SP (0, 0, 0)%Z.
Proof.
  intros Hs. pose proof (setup_facts _ _ Hs) as F. pose proof Hs as (mn & mx & per & w & np & _ & _ & _ & Hnp & _ & HD).
  destruct (createDMDAs_inv _ _ _ _ HD) as [-> _]. set (D := default_dec np (m_n m)) in *.
  assert (Sz : forall d, (0 <= d < 3)%Z -> (1 <= m_n m 3 d)%Z) by (intros d Hd; pose proof (sizes_pos m D 3 d F (or_intror eq_refl) Hd); lia).
  assert (L : forall d, (0 <= d < 3)%Z -> (1 <= ds_l D 3 d 0)%Z).
  { intros d Hd. specialize (Hnp d Hd). specialize (Sz d Hd). cbn [D default_dec ds_l]. unfold dmda_l.
    pose proof (Z.div_mod (m_n m 3 d) (np d) ltac:(lia)). pose proof (Z.mod_pos_bound (m_n m 3 d) (np d) ltac:(lia)). pose proof (Z.div_pos (m_n m 3 d) (np d) ltac:(lia) ltac:(lia)).
    destruct (m_n m 3 d mod np d >? 0)%Z eqn:E; [lia|]. assert (m_n m 3 d / np d <> 0)%Z by nia. lia. }
  assert (Hp : SP (0, 0, 0)%Z) by (unfold SP, interior; pose proof (Sz 0%Z ltac:(lia)); pose proof (Sz 1%Z ltac:(lia)); pose proof (Sz 2%Z ltac:(lia)); lia).
  split; [|exact Hp].
  assert (R0 : forall d, rcoord D d 0 = 0%Z) by (intros d; unfold rcoord; destruct (d =? 0)%Z, (d =? 1)%Z; rewrite ?Z.div_0_l, ?Z.mod_0_l; auto; cbn [D default_dec ds_np]; pose proof (Hnp 0%Z ltac:(lia)); pose proof (Hnp 1%Z ltac:(lia)); nia).
  assert (N : nthZ (field_layout D 3) 0 = Some (0, 0, 0)%Z).
  { unfold field_layout. rewrite (zrange_cons 0 (nranks D)).
    2: { unfold nranks. cbn [D default_dec ds_np]. pose proof (Hnp 0%Z ltac:(lia)). pose proof (Hnp 1%Z ltac:(lia)). pose proof (Hnp 2%Z ltac:(lia)). nia. }
    cbn [flat_map]. unfold local_points, box, d_ed, d_bg, d_m. rewrite !R0. change (isum (ds_l D 3 0) 0 0)%Z with 0%Z. change (isum (ds_l D 3 1) 0 0)%Z with 0%Z. change (isum (ds_l D 3 2) 0 0)%Z with 0%Z.
    pose proof (L 0%Z ltac:(lia)). pose proof (L 1%Z ltac:(lia)). pose proof (L 2%Z ltac:(lia)).
    rewrite (zrange_cons 0 (0 + ds_l D 3 0 0)), (zrange_cons 0 (0 + ds_l D 3 1 0)), (zrange_cons 0 (0 + ds_l D 3 2 0)) by lia. reflexivity. }
  destruct (pressure_row m D 0 _ F N) as (_ & E & _). symmetry. exact E.
Qed.
Lemma zero_rel p : SP p -> (ip D1 p =? 0)%Z = (ip D2 p =? 0)%Z.
Proof.
  intros Hp. destruct (first_cell D1 Hs1) as [E1 S0]. destruct (first_cell D2 Hs2) as [E2 _].
  pose proof (numbering_eqb _ _ _ _ _ _ p _ (numP D1 F1) (numP D2 F2) Hp S0) as N. now rewrite E1, E2 in N.
Qed.
Lemma pin_rel A1 A2 : mrel SP (ip D1) (ip D2) SP (ip D1) (ip D2) A1 A2 -> mrel SP (ip D1) (ip D2) SP (ip D1) (ip D2) (pin A1) (pin A2).
Proof.
  intros H k l Hk Hl. unfold pin. rewrite !zero_rel by auto. rewrite (numbering_eqb _ _ _ _ _ _ k l (numP D1 F1) (numP D2 F2) Hk Hl).
  destruct (_ || _)%bool; [reflexivity|]. now apply H.
Qed.

Lemma axpy_rel {K} (S : K -> Prop) i1 i2 a x1 x2 y1 y2 : vrel S i1 i2 x1 x2 -> vrel S i1 i2 y1 y2 -> vrel S i1 i2 (vaxpy y1 a x1) (vaxpy y2 a x2).
Proof. intros H H' k Hk. unfold vaxpy. now rewrite (H k Hk), (H' k Hk). Qed.
Lemma scale_rel {K} (S : K -> Prop) i1 i2 a x1 x2 : vrel S i1 i2 x1 x2 -> vrel S i1 i2 (vscale a x1) (vscale a x2).
Proof. intros H k Hk. unfold vscale. now rewrite (H k Hk). Qed.

(** The two solvers. *)
Context (P : nspar) (t0 : R) (n0 : Z) (U1 U2 q1 q2 : vec) (ops1 ops2 : nsops) (a1 a2 : nsstate).
Hypothesis HI1 : ns_init m D1 P types values t0 n0 U1 q1 = Ok (ops1, a1).
Hypothesis HI2 : ns_init m D2 P types values t0 n0 U2 q2 = Ok (ops2, a2).
Hypothesis HU : same_velocity m D1 D2 U1 U2.

Record ops_rel : Prop := {
  r_L : mrel SV (iv D1) (iv D2) SV (iv D1) (iv D2) (entry (op_log (o_L ops1))) (entry (op_log (o_L ops2)));
  r_D : mrel SP (ip D1) (ip D2) SV (iv D1) (iv D2) (entry (op_log (o_D ops1))) (entry (op_log (o_D ops2)));
  r_G : mrel SV (iv D1) (iv D2) SP (ip D1) (ip D2) (o_G ops1) (o_G ops2);
  r_A : mrel SV (iv D1) (iv D2) SV (iv D1) (iv D2) (o_A ops1) (o_A ops2);
  r_BNG : mrel SV (iv D1) (iv D2) SP (ip D1) (ip D2) (o_BNG ops1) (o_BNG ops2);
  r_DBNG : mrel SP (ip D1) (ip D2) SP (ip D1) (ip D2) (o_DBNG ops1) (o_DBNG ops2) }.
Lemma ics_of (U : vec) : has_ics [OpICs U]. Proof. exists U. now left. Qed.
Lemma ops_related : ops_rel.
Proof.
  destruct (ns_init_inv _ _ _ _ _ _ _ _ _ _ _ F1 Hb HI1) as (B1 & HB1 & EO1 & _).
  destruct (ns_init_inv _ _ _ _ _ _ _ _ _ _ _ F2 Hb HI2) as (B2 & HB2 & EO2 & _).
  destruct (createOperators_inv _ _ _ _ _ EO1) as (d1 & g1 & l1 & BN1 & Ed1 & Eg1 & El1 & EB1 & Q1).
  destruct (createOperators_inv _ _ _ _ _ EO2) as (d2 & g2 & l2 & BN2 & Ed2 & Eg2 & El2 & EB2 & Q2).
  rewrite (createLaplacian_ok m D1 types values [OpICs U1] B1 F1 Hb HB1) in El1. injection El1 as <-.
  rewrite (createLaplacian_ok m D2 types values [OpICs U2] B2 F2 Hb HB2) in El2. injection El2 as <-.
  rewrite (createDivergence_ok m D1 types values false [OpICs U1] B1 F1 Hb HB1) in Ed1. injection Ed1 as <-.
  rewrite (createDivergence_ok m D2 types values false [OpICs U2] B2 F2 Hb HB2) in Ed2. injection Ed2 as <-.
  rewrite (createGradient_ok m D1 false F1) in Eg1. injection Eg1 as <-. rewrite (createGradient_ok m D2 false F2) in Eg2. injection Eg2 as <-.
  pose proof (lap_rel _ _ (ics_of U1) (ics_of U2)) as RL. pose proof (div_rel _ _ (ics_of U1) (ics_of U2)) as RD. pose proof grad_rel as RG.
  pose proof (numV D1 F1) as N1. pose proof (numV D2 F2) as N2.
  pose proof (mr_bn _ _ _ _ _ _ _ _ _ _ _ _ _ N1 N2 RL EB1 EB2) as RB.
  assert (RBG := mr_mmul _ _ _ _ _ _ _ _ _ _ _ _ _ _ _ _ N1 N2 RB RG).
  assert (RDB := mr_mmul _ _ _ _ _ _ _ _ _ _ _ _ _ _ _ _ N1 N2 RD RBG).
  split; rewrite Q1, Q2; cbn [o_D o_G o_L o_A o_BNG o_DBNG]; auto.
  - apply (mr_shift (n_velocity m) SV (iv D1) (kv D1) (iv D2) (kv D2)); auto. now apply mr_scale.
  - cbv zeta. destruct (p_refp P); [now apply pin_rel|exact RDB].
Qed.

(** The corrections. *)
Lemma same_calls_app h1 h2 o1 o2 : Forall2 (same_call m D1 D2) h1 h2 -> same_call m D1 D2 o1 o2 -> Forall2 (same_call m D1 D2) (h1 ++ [o1]) (h2 ++ [o2]).
Proof. intros H H'. apply Forall2_app; auto. Qed.
Lemma lap_corr_rel h1 h2 B1 B2 c1 c2 : Forall2 (same_call m D1 D2) h1 h2 ->
  boundary_after m D1 types values ([OpICs U1] ++ h1) B1 -> boundary_after m D2 types values ([OpICs U2] ++ h2) B2 ->
  correction_mult m (nranks D1) (o_L ops1) B1 = Ok c1 -> correction_mult m (nranks D2) (o_L ops2) B2 = Ok c2 -> vv c1 c2.
Proof.
  intros Hh HB1 HB2 E1 E2.
  destruct (ns_init_inv _ _ _ _ _ _ _ _ _ _ _ F1 Hb HI1) as (A1 & HA1 & EO1 & _).
  destruct (ns_init_inv _ _ _ _ _ _ _ _ _ _ _ F2 Hb HI2) as (A2 & HA2 & EO2 & _).
  pose proof (r_L ops_related) as RL.
  assert (L1 : createLaplacian m D1 A1 = Ok (o_L ops1)) by (destruct (createOperators_inv _ _ _ _ _ EO1) as (? & ? & ? & ? & _ & _ & X & _ & Q); rewrite Q; exact X).
  assert (L2 : createLaplacian m D2 A2 = Ok (o_L ops2)) by (destruct (createOperators_inv _ _ _ _ _ EO2) as (? & ? & ? & ? & _ & _ & X & _ & Q); rewrite Q; exact X).
  pose proof (pure_after m D1 types values ([OpICs U1] ++ h1 ++ [OpVals U1]) F1 Hb) as HC1. set (C1 := fun r : Z => _) in HC1.
  pose proof (pure_after m D2 types values ([OpICs U2] ++ h2 ++ [OpVals U2]) F2 Hb) as HC2. set (C2 := fun r : Z => pure_state m D2 _ _ _ _) in HC2.
  destruct (extends_box_exists m D1 types values _ C1 U1 F1 Hb HC1) as (u & HX).
  assert (HX2 : extends_box m D2 C2 U2 u).
  { apply (extends_both m D1 D2 types values ([OpICs U1] ++ h1 ++ [OpVals U1]) ([OpICs U2] ++ h2 ++ [OpVals U2]) C1 C2 U1 U2 u); auto.
    apply Forall2_app; [repeat constructor; exact HU|]. apply same_calls_app; auto. now constructor. }
  destruct (laplacian_lemma m D1 types values [OpICs U1] h1 U1 A1 B1 C1 u F1 Hb (ics_of U1) Hmin HA1 HB1 HC1 (proj1 HX)) as (x1 & y1 & X1 & Y1 & V1).
  destruct (laplacian_lemma m D2 types values [OpICs U2] h2 U2 A2 B2 C2 u F2 Hb (ics_of U2) Hmin HA2 HB2 HC2 (proj1 HX2)) as (x2 & y2 & X2 & Y2 & V2).
  rewrite L1 in X1. injection X1 as <-. rewrite L2 in X2. injection X2 as <-. rewrite E1 in Y1. injection Y1 as <-. rewrite E2 in Y2. injection Y2 as <-.
  intros [f p] Hk. pose proof Hk as [Hf Hp]. cbn [fst snd] in *. specialize (V1 _ f p (proj2 (idx_spec m D1 f p F1 Hf Hp))). specialize (V2 _ f p (proj2 (idx_spec m D2 f p F2 Hf Hp))).
  pose proof (mr_mvec _ _ _ _ _ _ _ _ _ _ _ _ _ (numV D1 F1) (numV D2 F2) RL (proj1 (vv_same U1 U2) HU) (f, p) Hk) as M.
  unfold iv in *. cbn [fst snd] in *. change (mat_mult (op_log (o_L ops1)) (n_velocity m) U1) with (mvec (n_velocity m) (entry (op_log (o_L ops1))) U1) in V1.
  change (mat_mult (op_log (o_L ops2)) (n_velocity m) U2) with (mvec (n_velocity m) (entry (op_log (o_L ops2))) U2) in V2. lra.
Qed.
Lemma div_corr_rel h1 h2 B1 B2 c1 c2 : Forall2 (same_call m D1 D2) h1 h2 ->
  boundary_after m D1 types values ([OpICs U1] ++ h1) B1 -> boundary_after m D2 types values ([OpICs U2] ++ h2) B2 ->
  correction_mult m (nranks D1) (o_D ops1) B1 = Ok c1 -> correction_mult m (nranks D2) (o_D ops2) B2 = Ok c2 -> pp c1 c2.
Proof.
  intros Hh HB1 HB2 E1 E2.
  destruct (ns_init_inv _ _ _ _ _ _ _ _ _ _ _ F1 Hb HI1) as (A1 & HA1 & EO1 & _).
  destruct (ns_init_inv _ _ _ _ _ _ _ _ _ _ _ F2 Hb HI2) as (A2 & HA2 & EO2 & _).
  pose proof (r_D ops_related) as RD.
  assert (L1 : createDivergence m D1 A1 false = Ok (o_D ops1)) by (destruct (createOperators_inv _ _ _ _ _ EO1) as (? & ? & ? & ? & X & _ & _ & _ & Q); rewrite Q; exact X).
  assert (L2 : createDivergence m D2 A2 false = Ok (o_D ops2)) by (destruct (createOperators_inv _ _ _ _ _ EO2) as (? & ? & ? & ? & X & _ & _ & _ & Q); rewrite Q; exact X).
  pose proof (pure_after m D1 types values ([OpICs U1] ++ h1 ++ [OpVals U1]) F1 Hb) as HC1. set (C1 := fun r : Z => _) in HC1.
  pose proof (pure_after m D2 types values ([OpICs U2] ++ h2 ++ [OpVals U2]) F2 Hb) as HC2. set (C2 := fun r : Z => pure_state m D2 _ _ _ _) in HC2.
  destruct (extends_box_exists m D1 types values _ C1 U1 F1 Hb HC1) as (u & HX).
  assert (HX2 : extends_box m D2 C2 U2 u).
  { apply (extends_both m D1 D2 types values ([OpICs U1] ++ h1 ++ [OpVals U1]) ([OpICs U2] ++ h2 ++ [OpVals U2]) C1 C2 U1 U2 u); auto.
    apply Forall2_app; [repeat constructor; exact HU|]. apply same_calls_app; auto. now constructor. }
  destruct (divergence_lemma m D1 types values false [OpICs U1] h1 U1 A1 B1 C1 u F1 Hb (ics_of U1) min2 HA1 HB1 HC1 (proj1 HX)) as (x1 & y1 & X1 & Y1 & V1).
  destruct (divergence_lemma m D2 types values false [OpICs U2] h2 U2 A2 B2 C2 u F2 Hb (ics_of U2) min2 HA2 HB2 HC2 (proj1 HX2)) as (x2 & y2 & X2 & Y2 & V2).
  rewrite L1 in X1. injection X1 as <-. rewrite L2 in X2. injection X2 as <-. rewrite E1 in Y1. injection Y1 as <-. rewrite E2 in Y2. injection Y2 as <-.
  intros p Hp. specialize (V1 _ p (proj2 (pidx_spec m D1 p F1 Hp))). specialize (V2 _ p (proj2 (pidx_spec m D2 p F2 Hp))).
  pose proof (mr_mvec _ _ _ _ _ _ _ _ _ _ _ _ _ (numV D1 F1) (numV D2 F2) RD (proj1 (vv_same U1 U2) HU) p Hp) as M.
  unfold ip in *. change (mat_mult (op_log (o_D ops1)) (n_velocity m) U1) with (mvec (n_velocity m) (entry (op_log (o_D ops1))) U1) in V1.
  change (mat_mult (op_log (o_D ops2)) (n_velocity m) U2) with (mvec (n_velocity m) (entry (op_log (o_D ops2))) U2) in V2. lra.
Qed.

(** Equal up to the numbering after an exact solve. *)
Hypothesis Hc : 0 <= p_dimp P * p_nu P.
Hypothesis Hdt : 0 < p_dt P.
Hypothesis Hbn : p_bn P = 1%Z.
Lemma momentum_rel x1 x2 b1 b2 : vv b1 b2 -> solves (n_velocity m) (o_A ops1) x1 b1 -> solves (n_velocity m) (o_A ops2) x2 b2 -> vv x1 x2.
Proof.
  intros Hbb S1 S2. pose proof (solves_transport _ _ _ _ _ _ _ _ _ _ _ (numV D1 F1) (numV D2 F2) (r_A ops_related) Hbb S1) as S1'.
  destruct (momentum_unique_ns m D2 P types values t0 n0 U2 q2 ops2 a2 Hs2 Hb HI2 Hmin Hc Hdt b2) as (x & Sx & Ux).
  intros k Hk. destruct (proj1 (numV D2 F2) k Hk) as [Rk Ek]. rewrite (Ux _ S2 _ Rk). rewrite <- (Ux _ S1' _ Rk). now rewrite Ek.
Qed.
Lemma poisson_rel x1 x2 b1 b2 : pp b1 b2 -> solves (n_pressure m) (o_DBNG ops1) x1 b1 -> solves (n_pressure m) (o_DBNG ops2) x2 b2 ->
  exists a, (p_refp P = true -> a = 0) /\ pp x1 (fun i => x2 i + a).
Proof.
  intros Hbb S1 S2. pose proof (solves_transport _ _ _ _ _ _ _ _ _ _ _ (numP D1 F1) (numP D2 F2) (r_DBNG ops_related) Hbb S1) as S1'.
  destruct (p_refp P) eqn:Er.
  - destruct (pinned_unique_ns m D2 P types values t0 n0 U2 q2 ops2 a2 Hs2 Hb HI2 min2 Hnn Hbn ltac:(lra) Er b2) as (x & Sx & Ux).
    exists 0. split; auto. intros k Hk. destruct (proj1 (numP D2 F2) k Hk) as [Rk Ek]. rewrite (Ux _ S2 _ Rk). rewrite <- (Ux _ S1' _ Rk), Ek. ring.
  - destruct (unpinned_ns m D2 P types values t0 n0 U2 q2 ops2 a2 Hs2 Hb HI2 min2 Hnn Hbn ltac:(lra) Er b2) as [_ Ux].
    destruct (proj1 (Ux x2 S2 _) S1') as (a & Ha). exists a. split; [discriminate|]. intros k Hk. destruct (proj1 (numP D2 F2) k Hk) as [Rk Ek].
    rewrite <- (Ha _ Rk). now rewrite Ek.
Qed.
(** Constants have no gradient. *)
Lemma grad_const a i : (0 <= i < n_velocity m)%Z -> mvec (n_pressure m) (o_G ops2) (fun _ => a) i = 0.
Proof.
  intros Hi. destruct (ns_init_inv _ _ _ _ _ _ _ _ _ _ _ F2 Hb HI2) as (A2 & HA2 & EO2 & _).
  destruct (createOperators_inv _ _ _ _ _ EO2) as (? & g & ? & ? & _ & Eg & _ & _ & Q). rewrite Q. cbn [o_G]. rewrite (createGradient_ok m D2 false F2) in Eg. injection Eg as <-.
  apply (proj2 (grad_zero_const m D2 false (fun _ => a) F2 min2)); auto.
Qed.
Lemma bng_const a i : mvec (n_pressure m) (o_BNG ops2) (fun _ => a) i = 0.
Proof.
  destruct (ns_init_inv _ _ _ _ _ _ _ _ _ _ _ F2 Hb HI2) as (A2 & HA2 & EO2 & _).
  destruct (createOperators_inv _ _ _ _ _ EO2) as (? & g & ? & BN & _ & Eg & _ & _ & Q). pose proof (grad_const a) as Z0. rewrite Q in *. cbn [o_G o_BNG] in *.
  rewrite mvec_mmul. unfold mvec at 1. unfold zsum. apply sumR_zero. intros l Hl. apply zrange_In in Hl. rewrite (Z0 l Hl). ring.
Qed.
Lemma mvec_plus_const k A x a i : mvec k A (fun j => x j + a) i = mvec k A x i + mvec k A (fun _ => a) i.
Proof. unfold mvec. rewrite (zsum_ext _ (fun l => A i l * x l + A i l * a)) by (intros; ring). unfold zsum. now rewrite sumR_plus. Qed.
Lemma grad_rel_const p1 p2 a : pp p1 (fun i => p2 i + a) -> vv (mvec (n_pressure m) (o_G ops1) p1) (mvec (n_pressure m) (o_G ops2) p2).
Proof.
  intros H k Hk. rewrite (mr_mvec _ _ _ _ _ _ _ _ _ _ _ _ _ (numP D1 F1) (numP D2 F2) (r_G ops_related) H k Hk).
  rewrite mvec_plus_const, grad_const; [ring|]. apply (proj1 (numV D2 F2) k Hk).
Qed.
Lemma bng_rel_const p1 p2 a : pp p1 (fun i => p2 i + a) -> vv (mvec (n_pressure m) (o_BNG ops1) p1) (mvec (n_pressure m) (o_BNG ops2) p2).
Proof.
  intros H k Hk. rewrite (mr_mvec _ _ _ _ _ _ _ _ _ _ _ _ _ (numP D1 F1) (numP D2 F2) (r_BNG ops_related) H k Hk).
  rewrite mvec_plus_const, bng_const. ring.
Qed.

(** The stored terms. *)
Lemma rotate_rel (Rv : vec -> vec -> Prop) l1 l2 c1 c2 : Forall2 Rv l1 l2 -> rotate l1 = Ok c1 -> rotate l2 = Ok c2 -> Forall2 Rv c1 c2.
Proof.
  intros H E1 E2. destruct l1 as [|z t] using rev_ind.
  - inversion H; subst. injection E1 as <-. injection E2 as <-. constructor.
  - clear IHt. apply Forall2_app_inv_l in H. destruct H as (t' & z' & Ht & Hz & ->). inversion Hz as [|? b ? ? Hb' Hn]; subst. inversion Hn; subst.
    rewrite rotate_ok in *. injection E1 as <-. injection E2 as <-. constructor; auto.
Qed.
Lemma wr0_rel (Rv : vec -> vec -> Prop) l1 l2 c1 c2 k1 k2 : Forall2 Rv l1 l2 -> Rv c1 c2 -> wr l1 0 c1 = Ok k1 -> wr l2 0 c2 = Ok k2 -> Forall2 Rv k1 k2.
Proof.
  intros H Hcc E1 E2. destruct H as [|a b t t' Hab Ht]; [discriminate|]. pose proof (lenZ_nonneg t). pose proof (lenZ_nonneg t').
  unfold wr in *. rewrite lenZ_cons in *. replace ((0 <=? 0) && (0 <? 1 + lenZ t))%Z with true in E1 by lia. replace ((0 <=? 0) && (0 <? 1 + lenZ t'))%Z with true in E2 by lia.
  injection E1 as <-. injection E2 as <-. cbn. constructor; auto.
Qed.
Lemma add_terms_rel coeffs l1 l2 y1 y2 z1 z2 : Forall2 vv l1 l2 -> vv y1 y2 -> add_terms coeffs l1 y1 = Ok z1 -> add_terms coeffs l2 y2 = Ok z2 -> vv z1 z2.
Proof.
  intros H Hy E1 E2. unfold add_terms in *. rewrite <- (Forall2_lenZ _ _ _ H) in E2. revert y1 y2 Hy E1 E2. induction (zrange 0 (lenZ l1)) as [|i t IH]; intros y1 y2 Hy E1 E2.
  - injection E1 as <-. injection E2 as <-. exact Hy.
  - cbn [foldM] in *. apply bind_ok_inv in E1. destruct E1 as (w1 & X1 & E1). apply bind_ok_inv in X1. destruct X1 as (c & Ec & X1). apply bind_ok_inv in X1. destruct X1 as (v1 & Ev1 & X1).
    injection X1 as <-. rewrite Ec in E2. cbn [bind] in E2. apply rd_Ok in Ev1. destruct (Forall2_nthZ _ _ _ _ _ H Ev1) as (v2 & Ev2 & Hv). apply rd_Ok in Ev2. rewrite Ev2 in E2. cbn [bind] in E2.
    apply (IH _ _ (axpy_rel _ _ _ c _ _ _ _ Hv Hy) E1 E2).
Qed.

(** * One step *)
Definition srel (s1 s2 : nsstate) : Prop :=
  s_t s1 = s_t s2 /\ s_ite s1 = s_ite s2 /\ vv (s_U s1) (s_U s2) /\
  (exists a, (p_refp P = true -> same_pressure D1 D2 q1 q2 -> a = 0) /\ pp (s_p s1) (fun i => s_p s2 i + a)) /\
  Forall2 vv (s_conv s1) (s_conv s2) /\ Forall2 vv (s_diff s1) (s_diff s2) /\
  exists h1 h2, Forall2 (same_call m D1 D2) h1 h2 /\
    boundary_after m D1 types values ([OpICs U1] ++ h1) (s_bc s1) /\ boundary_after m D2 types values ([OpICs U2] ++ h2) (s_bc s2).

Context (conv1 conv2 : boundary -> vec -> res vec) (vs1 vs2 ps1 ps2 : vec -> vec -> vec).
Hypothesis Hcv : conv_agree m D1 D2 types values conv1 conv2.
Lemma calls_from h1 h2 : Forall2 (same_call m D1 D2) h1 h2 -> Forall2 (same_call m D1 D2) ([OpICs U1] ++ h1) ([OpICs U2] ++ h2).
Proof. intros H. apply Forall2_app; auto. repeat constructor. exact HU. Qed.

Lemma rhsv_rel s1 s2 r1 r2 t1 t2 : srel s1 s2 -> assembleRHSVelocity m D1 P ops1 conv1 s1 = Ok (r1, t1) -> assembleRHSVelocity m D2 P ops2 conv2 s2 = Ok (r2, t2) ->
  vv r1 r2 /\ Forall2 vv (s_conv t1) (s_conv t2) /\ Forall2 vv (s_diff t1) (s_diff t2).
Proof.
  intros (_ & _ & SU & (a & _ & Sp) & Sc & Sd & h1 & h2 & Hh & B1 & B2) E1 E2. unfold assembleRHSVelocity, rhs_velocity in *. cbv zeta in *.
  apply bind_ok_inv in E1. destruct E1 as (cs0 & Xc0 & E1). apply bind_ok_inv in E2. destruct E2 as (cs0' & Xc0' & E2). pose proof (rotate_rel _ _ _ _ _ Sc Xc0 Xc0') as Fc0.
  apply bind_ok_inv in E1. destruct E1 as (cs & Xc & E1). apply bind_ok_inv in E2. destruct E2 as (cs' & Xc' & E2).
  assert (Fc : Forall2 vv cs cs').
  { rewrite <- (Forall2_lenZ _ _ _ Fc0) in Xc'. destruct (0 <? lenZ cs0)%Z; [|injection Xc as <-; injection Xc' as <-; exact Fc0].
    apply bind_ok_inv in Xc. destruct Xc as (c & Ec & Xc). apply bind_ok_inv in Xc'. destruct Xc' as (c' & Ec' & Xc').
    refine (wr0_rel _ _ _ _ _ _ _ Fc0 _ Xc Xc'). apply scale_rel. apply vv_same.
    refine (Hcv _ _ _ _ _ _ _ _ B1 B2 (calls_from _ _ Hh) _ (proj2 (vv_same _ _) SU) Ec Ec'). exists U1. apply in_or_app. left. now left. }
  apply bind_ok_inv in E1. destruct E1 as (x1 & X1 & E1). apply bind_ok_inv in E2. destruct E2 as (x2 & X2 & E2).
  assert (V1 : vv x1 x2).
  { refine (add_terms_rel _ _ _ _ _ _ _ Fc _ X1 X2). apply axpy_rel; auto. apply scale_rel. now apply (grad_rel_const _ _ a). }
  apply bind_ok_inv in E1. destruct E1 as (ds0 & Xd0 & E1). apply bind_ok_inv in E2. destruct E2 as (ds0' & Xd0' & E2). pose proof (rotate_rel _ _ _ _ _ Sd Xd0 Xd0') as Fd0.
  apply bind_ok_inv in E1. destruct E1 as (ds & Xd & E1). apply bind_ok_inv in E2. destruct E2 as (ds' & Xd' & E2).
  assert (Fd : Forall2 vv ds ds').
  { rewrite <- (Forall2_lenZ _ _ _ Fd0) in Xd'. destruct (0 <? lenZ ds0)%Z; [|injection Xd as <-; injection Xd' as <-; exact Fd0].
    apply bind_ok_inv in Xd. destruct Xd as (c & Ec & Xd). apply bind_ok_inv in Xd'. destruct Xd' as (c' & Ec' & Xd').
    refine (wr0_rel _ _ _ _ _ _ _ Fd0 _ Xd Xd'). apply scale_rel. apply axpy_rel.
    - exact (mr_mvec _ _ _ _ _ _ _ _ _ _ _ _ _ (numV D1 F1) (numV D2 F2) (r_L ops_related) SU).
    - exact (lap_corr_rel _ _ _ _ _ _ Hh B1 B2 Ec Ec'). }
  apply bind_ok_inv in E1. destruct E1 as (y1 & Y1 & E1). apply bind_ok_inv in E2. destruct E2 as (y2 & Y2 & E2).
  pose proof (add_terms_rel _ _ _ _ _ _ _ Fd V1 Y1 Y2) as V2.
  apply bind_ok_inv in E1. destruct E1 as (C1 & XB1 & E1). apply bind_ok_inv in E2. destruct E2 as (C2 & XB2 & E2).
  apply bind_ok_inv in E1. destruct E1 as (c1 & Ec1 & E1). apply bind_ok_inv in E2. destruct E2 as (c2 & Ec2 & E2).
  injection E1 as <- <-. injection E2 as <- <-. cbn [s_conv s_diff]. split; [|split; auto].
  apply axpy_rel; auto. apply scale_rel.
  apply (bc_call_inv m D1 types values _ _ _ _ F1 Hb B1) in XB1. apply (bc_call_inv m D2 types values _ _ _ _ F2 Hb B2) in XB2. rewrite <- app_assoc in XB1, XB2.
  refine (lap_corr_rel _ _ _ _ _ _ _ XB1 XB2 Ec1 Ec2). apply same_calls_app; auto. constructor. now apply vv_same.
Qed.

Lemma step_rel s1 s2 t1 t2 : srel s1 s2 -> exact_step m D1 P ops1 conv1 vs1 ps1 s1 -> exact_step m D2 P ops2 conv2 vs2 ps2 s2 ->
  advance m D1 P ops1 conv1 vs1 ps1 s1 = Ok t1 -> advance m D2 P ops2 conv2 vs2 ps2 s2 = Ok t2 -> srel t1 t2.
Proof.
  intros HS X1 X2 E1 E2.
  destruct (advance_inv _ _ _ _ _ _ _ _ _ E1) as (r1 & w1 & b1 & R1 & P1 & BE1 & _ & EU1 & Ep1 & BV1 & Et1 & Ei1 & Ec1 & Ed1).
  destruct (advance_inv _ _ _ _ _ _ _ _ _ E2) as (r2 & w2 & b2 & R2 & P2 & BE2 & _ & EU2 & Ep2 & BV2 & Et2 & Ei2 & Ec2 & Ed2).
  destruct (X1 _ _ _ R1 P1) as [SA1 SP1]. destruct (X2 _ _ _ R2 P2) as [SA2 SP2].
  pose proof HS as (St & Si & SU & (a & Ha & Sp) & Sc & Sd & h1 & h2 & Hh & B1 & B2).
  match type of R1 with assembleRHSVelocity _ _ _ _ _ ?z = _ => match type of R2 with assembleRHSVelocity _ _ _ _ _ ?z' = _ =>
    assert (HS' : srel z z') by (repeat split; cbn [s_t s_ite s_U s_p s_dP s_conv s_diff s_bc]; auto; [now rewrite St|now rewrite Si|eauto|eauto 8]) end end.
  destruct (rhsv_rel _ _ _ _ _ _ HS' R1 R2) as (Vr & Vc & Vd).
  pose proof (momentum_rel _ _ _ _ Vr SA1 SA2) as VU.
  apply (bc_call_inv m D1 types values _ _ _ _ F1 Hb B1) in BE1. apply (bc_call_inv m D2 types values _ _ _ _ F2 Hb B2) in BE2. rewrite <- app_assoc in BE1, BE2.
  assert (Hh1 : Forall2 (same_call m D1 D2) (h1 ++ [OpEqs (s_U s1) (p_dt P)]) (h2 ++ [OpEqs (s_U s2) (p_dt P)])) by (apply same_calls_app; auto; constructor; now apply vv_same).
  assert (Vb : pp b1 b2).
  { unfold assembleRHSPoisson in P1, P2. apply bind_ok_inv in P1. destruct P1 as (c1 & C1 & P1). apply bind_ok_inv in P2. destruct P2 as (c2 & C2 & P2).
    pose proof (div_corr_rel _ _ _ _ _ _ Hh1 BE1 BE2 C1 C2) as Vc'.
    assert (V : pp (vaxpy c1 1 (mvec (n_velocity m) (entry (op_log (o_D ops1))) (vs1 (s_U s1) r1))) (vaxpy c2 1 (mvec (n_velocity m) (entry (op_log (o_D ops2))) (vs2 (s_U s2) r2)))).
    { apply axpy_rel; auto. exact (mr_mvec _ _ _ _ _ _ _ _ _ _ _ _ _ (numV D1 F1) (numV D2 F2) (r_D ops_related) VU). }
    injection P1 as <-. injection P2 as <-. destruct (p_refp P); [|exact V]. intros k Hk. cbv beta. rewrite (zero_rel k Hk). destruct (_ =? 0)%Z; [reflexivity|]. exact (V k Hk). }
  destruct (poisson_rel _ _ _ _ Vb SP1 SP2) as (a' & Ha' & VP).
  assert (VU2 : vv (s_U t1) (s_U t2)) by (rewrite EU1, EU2; apply axpy_rel; auto; now apply (bng_rel_const _ _ a')).
  apply (bc_call_inv m D1 types values _ _ _ _ F1 Hb BE1) in BV1. apply (bc_call_inv m D2 types values _ _ _ _ F2 Hb BE2) in BV2. rewrite <- app_assoc in BV1, BV2.
  split; [rewrite Et1, Et2, St; reflexivity|]. split; [rewrite Ei1, Ei2, Si; reflexivity|]. split; [exact VU2|].
  split. { exists (a + a'). split; [intros Er Eq; rewrite (Ha Er Eq), (Ha' Er); ring|]. rewrite Ep1, Ep2. intros k Hk. unfold vaxpy. rewrite (Sp k Hk), (VP k Hk). ring. }
  split; [now rewrite Ec1, Ec2|]. split; [now rewrite Ed1, Ed2|]. do 2 eexists. split; [|split; [exact BV1|exact BV2]].
  apply same_calls_app; auto. constructor. now apply vv_same.
Qed.

Lemma run_rel k s1 s2 : same_pressure_up_to_constant D1 D2 q1 q2 ->
  exact_run m D1 P ops1 conv1 vs1 ps1 a1 k -> exact_run m D2 P ops2 conv2 vs2 ps2 a2 k ->
  ns_steps m D1 P ops1 conv1 vs1 ps1 k a1 = Ok s1 -> ns_steps m D2 P ops2 conv2 vs2 ps2 k a2 = Ok s2 -> srel s1 s2.
Proof.
  intros (a & Hq). revert s1 s2. induction k as [|k IH]; intros s1 s2 X1 X2 E1 E2.
  - injection E1 as <-. injection E2 as <-.
    destruct (ns_init_inv _ _ _ _ _ _ _ _ _ _ _ F1 Hb HI1) as (A1 & HA1 & _ & Q1). destruct (ns_init_inv _ _ _ _ _ _ _ _ _ _ _ F2 Hb HI2) as (A2 & HA2 & _ & Q2).
    rewrite Q1, Q2. assert (Z0 : forall l : list R, Forall2 vv (map (fun _ => (fun _ => 0) : vec) l) (map (fun _ => (fun _ => 0) : vec) l)) by (induction l; cbn [map]; constructor; auto; intros ? _; reflexivity).
    repeat split; cbn [s_t s_ite s_U s_p s_dP s_conv s_diff s_bc]; auto.
    + now apply vv_same.
    + apply pp_same in Hq. destruct (p_refp P) eqn:Er; [|exists a; split; [discriminate|exact Hq]].
      destruct (Req_dec a 0) as [->|Na]; [exists 0; auto|]. exists a. split; [|exact Hq]. intros _ Hsame. exfalso. apply Na.
      destruct (first_cell D1 Hs1) as [_ S0]. apply pp_same in Hsame. specialize (Hq _ S0). specialize (Hsame _ S0). cbv beta in Hq. lra.
    + exists [], []. split; [constructor|]. rewrite !app_nil_r. auto.
  - cbn [ns_steps] in E1, E2. apply bind_ok_inv in E1. destruct E1 as (u1 & Y1 & E1). apply bind_ok_inv in E2. destruct E2 as (u2 & Y2 & E2).
    assert (HS : srel u1 u2) by (apply IH; auto; intros j s Hj; [apply X1|apply X2]; lia).
    apply (step_rel u1 u2 s1 s2 HS); auto; [apply (X1 k)|apply (X2 k)]; auto; lia.
Qed.

(** Histories with at most one slot are overwritten before they are used. *)
Lemma one_slot D O conv t n U p dP c c' d d' B : (lenZ c <= 1)%Z -> (lenZ d <= 1)%Z -> lenZ c' = lenZ c -> lenZ d' = lenZ d ->
  assembleRHSVelocity m D P O conv (mkNS t n U p dP c d B) = assembleRHSVelocity m D P O conv (mkNS t n U p dP c' d' B).
Proof.
  intros Lc Ld Ec Ed.
  assert (X : forall l l' : list vec, (lenZ l <= 1)%Z -> lenZ l' = lenZ l -> l = l' \/ exists a b, l = [a] /\ l' = [b]).
  { intros [|a [|a' l]] [|b [|b' l']] H1 H2; rewrite ?lenZ_cons in *; pose proof (lenZ_nonneg (A:=vec) []); try (pose proof (lenZ_nonneg l)); try (pose proof (lenZ_nonneg l'));
      change (lenZ (@nil vec)) with 0%Z in *; try lia; [now left|right; eauto]. }
  unfold assembleRHSVelocity, rhs_velocity. cbn [s_t s_ite s_U s_p s_dP s_conv s_diff s_bc]. cbv zeta.
  assert (Y : forall a b : vec, rotate [a] = Ok [a] /\ forall v, wr [a] 0 v = wr [b] 0 v) by (intros; split; reflexivity).
  assert (Z1 : forall a : vec, (0 <? lenZ [a])%Z = true) by reflexivity.
  destruct (X c c' Lc Ec) as [<-|(a & b & -> & ->)]; destruct (X d d' Ld Ed) as [<-|(a' & b' & -> & ->)];
    rewrite ?(proj1 (Y a a)), ?(proj1 (Y b b)), ?(proj1 (Y a' a')), ?(proj1 (Y b' b')); cbn [bind]; rewrite ?Z1; reflexivity.
Qed.

(** As [srel], for histories that need not agree if they are not used. *)
Definition srelw (s1 s2 : nsstate) : Prop :=
  s_t s1 = s_t s2 /\ s_ite s1 = s_ite s2 /\ vv (s_U s1) (s_U s2) /\
  (exists a, (p_refp P = true -> same_pressure D1 D2 q1 q2 -> a = 0) /\ pp (s_p s1) (fun i => s_p s2 i + a)) /\
  ((Forall2 vv (s_conv s1) (s_conv s2) /\ Forall2 vv (s_diff s1) (s_diff s2)) \/
   (lenZ (s_conv s1) <= 1 /\ lenZ (s_conv s2) = lenZ (s_conv s1) /\ lenZ (s_diff s1) <= 1 /\ lenZ (s_diff s2) = lenZ (s_diff s1))%Z) /\
  exists h1 h2, Forall2 (same_call m D1 D2) h1 h2 /\
    boundary_after m D1 types values ([OpICs U1] ++ h1) (s_bc s1) /\ boundary_after m D2 types values ([OpICs U2] ++ h2) (s_bc s2).
Lemma srel_weak s1 s2 : srel s1 s2 -> srelw s1 s2.
Proof. intros (A & B & C & E & F & G & H). repeat (split; [assumption|]). split; auto. Qed.
Definition blank (s : nsstate) : nsstate :=
  mkNS (s_t s) (s_ite s) (s_U s) (s_p s) (s_dP s) (map (fun _ => (fun _ => 0) : vec) (s_conv s)) (map (fun _ => (fun _ => 0) : vec) (s_diff s)) (s_bc s).
Lemma blank_advance D O conv vs ps s : (lenZ (s_conv s) <= 1)%Z -> (lenZ (s_diff s) <= 1)%Z -> advance m D P O conv vs ps (blank s) = advance m D P O conv vs ps s.
Proof.
  intros Lc Ld. unfold advance, advance_with, blank. cbn [s_t s_ite s_U s_p s_dP s_conv s_diff s_bc]. cbv zeta.
  rewrite (one_slot D O conv (s_t s + p_dt P) (s_ite s + 1)%Z (s_U s) (s_p s) (s_dP s) (s_conv s) (map (fun _ => (fun _ => 0) : vec) (s_conv s)) (s_diff s) (map (fun _ => (fun _ => 0) : vec) (s_diff s))); auto using lenZ_map.
Qed.
Lemma blank_exact D O conv vs ps s : (lenZ (s_conv s) <= 1)%Z -> (lenZ (s_diff s) <= 1)%Z -> exact_step m D P O conv vs ps s -> exact_step m D P O conv vs ps (blank s).
Proof.
  intros Lc Ld H r1 s1 r2 E1 E2. unfold blank in *. cbn [s_t s_ite s_U s_p s_dP s_conv s_diff s_bc] in *.
  rewrite <- (one_slot D O conv (s_t s + p_dt P) (s_ite s + 1)%Z (s_U s) (s_p s) (s_dP s) (s_conv s) (map (fun _ => (fun _ => 0) : vec) (s_conv s)) (s_diff s) (map (fun _ => (fun _ => 0) : vec) (s_diff s))) in E1; auto using lenZ_map.
  exact (H _ _ _ E1 E2).
Qed.
Lemma zeros_rel (l1 l2 : list vec) : lenZ l2 = lenZ l1 -> Forall2 vv (map (fun _ => (fun _ => 0) : vec) l1) (map (fun _ => (fun _ => 0) : vec) l2).
Proof.
  revert l2. induction l1 as [|a l1 IH]; intros [|b l2] H; rewrite ?lenZ_cons in H; change (lenZ (@nil vec)) with 0%Z in H; try (pose proof (lenZ_nonneg l1)); try (pose proof (lenZ_nonneg l2)); try lia; [constructor|].
  cbn [map]. constructor; [intros ? _; reflexivity|]. apply IH. lia.
Qed.
Lemma step_relw s1 s2 t1 t2 : srelw s1 s2 -> exact_step m D1 P ops1 conv1 vs1 ps1 s1 -> exact_step m D2 P ops2 conv2 vs2 ps2 s2 ->
  advance m D1 P ops1 conv1 vs1 ps1 s1 = Ok t1 -> advance m D2 P ops2 conv2 vs2 ps2 s2 = Ok t2 -> srel t1 t2.
Proof.
  intros (A & B & C & E & [[F G]|(L1 & L2 & L3 & L4)] & H) X1 X2 E1 E2.
  - apply (step_rel s1 s2); auto. repeat (split; [assumption|]). assumption.
  - rewrite <- blank_advance in E1 by lia. rewrite <- blank_advance in E2 by lia. apply blank_exact in X1; [|lia..]. apply blank_exact in X2; [|lia..].
    apply (step_rel (blank s1) (blank s2)); auto. unfold blank, srel. cbn [s_t s_ite s_U s_p s_dP s_conv s_diff s_bc]. repeat (split; [assumption|]).
    split; [now apply zeros_rel|]. split; [now apply zeros_rel|exact H].
Qed.
(** Runs from related states. *)
Lemma run_rel_from x1 x2 k s1 s2 : srelw x1 x2 -> exact_run m D1 P ops1 conv1 vs1 ps1 x1 k -> exact_run m D2 P ops2 conv2 vs2 ps2 x2 k ->
  ns_steps m D1 P ops1 conv1 vs1 ps1 k x1 = Ok s1 -> ns_steps m D2 P ops2 conv2 vs2 ps2 k x2 = Ok s2 -> srelw s1 s2 /\ (srel x1 x2 -> srel s1 s2).
Proof.
  intros H0. revert s1 s2. induction k as [|k IH]; intros s1 s2 X1 X2 E1 E2.
  - injection E1 as <-. injection E2 as <-. auto.
  - cbn [ns_steps] in E1, E2. apply bind_ok_inv in E1. destruct E1 as (u1 & Y1 & E1). apply bind_ok_inv in E2. destruct E2 as (u2 & Y2 & E2).
    assert (HS : srelw u1 u2) by (apply IH; auto; intros j s Hj; [apply X1|apply X2]; lia).
    assert (T : srel s1 s2) by (apply (step_relw u1 u2 s1 s2 HS); auto; [apply (X1 k)|apply (X2 k)]; auto; lia).
    split; [now apply srel_weak|auto].
Qed.
End Two.
