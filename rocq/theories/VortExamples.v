(** C51: cases that meet the hypotheses, and where the utility is wrong. *)
From Coq Require Import String ZifyBool.
From Verif Require Import Prelude ZSum RSum TypesModel GridModel GridSpec IndexModel IndexSpec IndexProof BoundaryModel BoundarySpec BoundaryProof
  OperatorModel OperatorSpec BStateProof MatModel NSModel NSProof NameModel NameProof DriverModel DriverSpec DriverProof ConvModel ConvSpec ConvProof ConvValue ConvTotal
  ConvProps ExampleSetup ExampleSetup3 VortModel VortSpec VortProof VortFile VortValue VortCurl VortProps.
Local Open Scope R_scope.

(** A solution file with a given velocity. *)
Definition field_data (m : mesh) (u : Z -> pt -> R) (f : Z) : list R := map (u f) (box 0 (m_n m f 0) 0 (m_n m f 1) 0 (m_n m f 2)).
Definition field_file (m : mesh) (u : Z -> pt -> R) : file :=
  mkFile (fun nm => if String.eqb nm "/u" then Some (field_data m u 0) else if String.eqb nm "/v" then Some (field_data m u 1)
                    else if String.eqb nm "/w" then Some (field_data m u 2) else if String.eqb nm "/p" then Some (field_data m u 3) else None) None [].
Lemma field_set m u f : (0 <= f < 3)%Z -> f_sets (field_file m u) (set_name f) = Some (field_data m u f).
Proof. intros Hf. assert (f = 0 \/ f = 1 \/ f = 2)%Z as [->|[->| ->]] by lia; reflexivity. Qed.
Lemma field_len m D u f : mfacts m D -> (0 <= f < m_dim m \/ f = 3)%Z -> lenZ (field_data m u f) = npoints (m_n m f).
Proof.
  intros F Hf. unfold field_data. rewrite lenZ_map. destruct (mf_sizes _ _ F f Hf) as (_ & A & B & C & _). rewrite box_lenZ by lia. unfold npoints. lia.
Qed.
Lemma field_readable m D u : mfacts m D -> readable m (field_file m u).
Proof.
  intros F. pose proof (mf_dim _ _ F). split.
  - intros f Hf. exists (field_data m u f). split; [apply field_set; lia|]. apply (field_len m D); auto.
  - exists (field_data m u 3). split; [reflexivity|]. apply (field_len m D); auto.
Qed.
Lemma field_stored m D u : mfacts m D -> (forall d, (0 <= d < 3)%Z -> periodic_dir m d = false) -> stored_velocity m (field_file m u) u.
Proof.
  intros F Hper f q Hf Hfr Hi. pose proof (mf_dim _ _ F). exists (field_data m u f). split; [apply field_set; lia|].
  assert (Hin : interior (m_n m f) q).
  { apply interior_pc. intros d Hd. destruct (outside (m_n m f d) (pc q d)) eqn:E; [|unfold outside in E; lia].
    pose proof (proj1 (has_image_pc _ _ _) Hi d Hd E) as X. rewrite (Hper d Hd) in X. discriminate. }
  rewrite image_id by auto. unfold field_data. rewrite nthZ_map. destruct q as [[i j] k]. unfold natural.
  destruct Hin as (Hi1 & Hj1 & Hk1). pose proof (box_nth 0 (m_n m f 0) 0 (m_n m f 1) 0 (m_n m f 2) i j k) as X. rewrite !Z.sub_0_r in X.
  match goal with |- option_map _ (nthZ _ ?e) = _ => replace e with ((k * m_n m f 1 + j) * m_n m f 0 + i)%Z by ring end.
  exact (f_equal (option_map (u f)) (X Hi1 Hj1 Hk1)).
Qed.

Definition one_disk (F : file) : disk := fun p => if String.eqb p (solution_path "o" 0) then Some F else None.
Lemma one_disk_at F : one_disk F (solution_path "o" 0) = Some F.
Proof. unfold one_disk. now rewrite String.eqb_refl. Qed.
Lemma one_step F m : readable m F -> forall k, (0 <= k)%Z -> (0 + k * 1 <= 0)%Z -> exists G, one_disk F (solution_path "o" (0 + k * 1)) = Some G /\ readable m G.
Proof. intros H k Hk Hle. replace (0 + k * 1)%Z with 0%Z by lia. exists F. split; [apply one_disk_at|exact H]. Qed.

Lemma ex_not_periodic d : (0 <= d < 3)%Z -> periodic_dir (ex_mesh false false) d = false.
Proof. intros Hd. assert (d = 0 \/ d = 1 \/ d = 2)%Z as [->|[->| ->]] by lia; reflexivity. Qed.
Lemma c3_not_periodic d : (0 <= d < 3)%Z -> periodic_dir c3_mesh d = false.
Proof. intros Hd. assert (d = 0 \/ d = 1 \/ d = 2)%Z as [->|[->| ->]] by lia; reflexivity. Qed.

(** A flow linear in the coordinates (among them rigid rotation, g 0 1 = - w,
    g 1 0 = w) on a stretched mesh over two ranks: every hypothesis holds and
    there is an inner vertex. *)
Example vorticity_example : forall c g, let m := ex_mesh false false in let D := ex_dec false false in
  exists F d' F', mesh_setup m D /\ bc_fits m (wall_types false false) /\ readable m F /\ stored_velocity m F (linear_velocity m c g) /\
    vort_main 5 m D (wall_types false false) (fun _ _ => 1) "o" 0 0 1 (one_disk F) = Ok (Some d') /\
    d' (solution_path "o" 0) = Some F' /\ inner_vertex m 2 (2, 1, 0)%Z /\
    exists l, f_sets F' "/wz" = Some l /\ nthZ l 7 = Some (g 1%Z 0%Z - g 0%Z 1%Z).
Proof.
  intros c g m D. assert (Hs : mesh_setup m D) by apply ex_setup. pose proof (setup_facts _ _ Hs) as Fa. pose proof (wall_fits false false) as Hb.
  set (F := field_file m (linear_velocity m c g)). assert (HR : readable m F) by (eapply field_readable; eauto).
  assert (HS : stored_velocity m F (linear_velocity m c g)) by (eapply field_stored; eauto using ex_not_periodic).
  destruct (vorticity_run m D _ (fun _ _ => 1) "o" 5 0 0 1 (one_disk F) Hs Hb ltac:(lia) ltac:(lia) ltac:(lia) (one_step F m HR)) as (d' & E & H1 & _).
  destruct (H1 0%Z F ltac:(lia) ltac:(lia) (one_disk_at F)) as (F' & HF' & _).
  exists F, d', F'. split; [exact Hs|]. split; [exact Hb|]. split; [exact HR|]. split; [exact HS|]. split; [exact E|]. split; [exact HF'|].
  assert (Hin : inner_vertex m 2 (2, 1, 0)%Z).
  { split.
    - intros d Hd. assert (d = 0 \/ d = 1 \/ d = 2)%Z as [->|[->| ->]] by lia; vm_compute; split; congruence.
    - intros d Hd Hne. right. change (m_dim m) with 2%Z in Hd. assert (d = 0 \/ d = 1)%Z as [->| ->] by lia; vm_compute; split; congruence. }
  split; [exact Hin|].
  destruct (vorticity_of_linear_flow m D _ (fun _ _ => 1) "o" 5 0 0 1 (one_disk F) 0 F d' F' c g Hs Hb ltac:(lia) ltac:(lia) ltac:(lia) (one_step F m HR) E ltac:(lia) ltac:(lia)
    (one_disk_at F) HF' HS) as (l & El & _ & Hl).
  destruct (Hl _ (proj1 Hin)) as (v & Ev & Hv). exists l. split; [exact El|]. change (natural (vort_sizes m 2) (2, 1, 0)%Z) with 7%Z in Ev. now rewrite Ev, (Hv Hin).
Qed.
Print Assumptions vorticity_example.

(** ... and a vertex on a wall: the same mesh on one rank. *)
Example wall_vertex_example : wall_vertex (ex_mesh false false) (one_dec false false) 2 1 (2, 0, 0)%Z /\ wall_vertex (ex_mesh false false) (one_dec false false) 2 0 (4, 1, 0)%Z.
Proof.
  assert (P : forall p, (p = (2, 0, 0) \/ p = (4, 1, 0))%Z -> vort_point (ex_mesh false false) 2 p).
  { intros p Hp d Hd. assert (d = 0 \/ d = 1 \/ d = 2)%Z as [->|[->| ->]] by lia; destruct Hp as [->| ->]; vm_compute; split; congruence. }
  split; (split; [apply P; auto|]); (split; [rewrite ex_dim; lia|]); (split; [lia|]); (split; [reflexivity|]);
    (split; [vm_compute; auto|]); intros e He H1 H2; rewrite ex_dim in He.
  - assert (e = 0)%Z as -> by lia. split; [reflexivity|]. vm_compute; split; congruence.
  - assert (e = 1)%Z as -> by lia. split; [reflexivity|]. vm_compute; split; congruence.
Qed.

(** Where the boundary is cut by the decomposition the stored value can be
    wrong: a uniform flow through the boundary, whose vorticity is zero, is
    stored with a non-zero value. *)
Theorem vorticity_cut_wall_refuted : exists m D types values c F d' F' l v,
  mesh_setup m D /\ bc_fits m types /\ uniform_bc m types values c /\ readable m F /\ stored_velocity m F (fun f _ => c f) /\
  vort_main 5 m D types values "o" 0 0 1 (one_disk F) = Ok (Some d') /\ d' (solution_path "o" 0) = Some F' /\
  f_sets F' "/wz" = Some l /\ vort_point m 2 (2, 0, 0)%Z /\ nthZ l (natural (vort_sizes m 2) (2, 0, 0)%Z) = Some v /\
  curl m (fun f _ => c f) 2 (2, 0, 0)%Z = 0 /\ v <> 0.
Proof.
  set (m := ex_mesh false false). set (D := ex_dec false false). assert (Hs : mesh_setup m D) by apply ex_setup. pose proof (setup_facts _ _ Hs) as Fa. pose proof (wall_fits false false) as Hb.
  set (F := field_file m (fun f _ => ones f)). assert (HR : readable m F) by (eapply field_readable; eauto).
  assert (HS : stored_velocity m F (fun f _ => ones f)) by (eapply field_stored; eauto using ex_not_periodic).
  destruct (main_value m D _ (fun _ _ => 1) "o" 5 0 0 1 (one_disk F) Hs Hb ltac:(lia) ltac:(lia) ltac:(lia) (one_step F m HR)) as (d' & E & H1 & _).
  destruct (H1 0%Z F ltac:(lia) ltac:(lia) (one_disk_at F)) as (F' & HF' & _ & hist & U' & B' & HB & HU & Hh).
  assert (Hk : ok_comp m 0) by (unfold ok_comp; vm_compute; split; congruence).
  assert (HP : vort_point m 2 (2, 0, 0)%Z) by (intros d Hd; assert (d = 0 \/ d = 1 \/ d = 2)%Z as [->|[->| ->]] by lia; vm_compute; split; congruence).
  destruct (Hh 0%Z Hk) as (l & El & _ & Hl). destruct (Hl _ HP) as (v & Ev & Hv).
  assert (HX : extends_box m D B' U' (fun f _ => ones f)).
  { eapply (uniform_extends m D (wall_types false false) (fun _ _ => 1) ones hist (OpICs U') B' U'); auto.
    - apply wall_uniform.
    - intros id f p Hid. destruct (layout_interior _ _ _ _ _ Fa Hid) as [Hf Hp]. pose proof (HU _ _ _ Hid) as X.
      eapply in_file_fun; [exact X|]. specialize (HS f p Hf). rewrite image_id in HS by exact Hp. apply HS.
      + apply in_frame_pc. intros d Hd. pose proof (proj1 (interior_pc _ _) Hp d Hd). lia.
      + apply has_image_pc. intros d Hd Ho. rewrite interior_pc in Hp. specialize (Hp d Hd). unfold outside in Ho. lia.
    - exists U'. apply in_app_iff. right. now left. }
  destruct (stored_view m D _ _ _ B' U' _ 0%Z _ v Hs Hb HB HX Hk Hv) as (r & Hr & Hloc & Er).
  exists m, D, (wall_types false false), (fun _ _ => 1), ones, F, d', F', l, v.
  split; [exact Hs|]. split; [exact Hb|]. split; [apply wall_uniform|]. split; [exact HR|]. split; [exact HS|]. split; [exact E|]. split; [exact HF'|]. split; [exact El|].
  split; [exact HP|]. split; [exact Ev|]. split; [unfold curl; lra|].
  assert (r = 0)%Z. { change (nranks D) with 2%Z in Hr. assert (r = 0 \/ r = 1)%Z as [->| ->] by lia; [reflexivity|]. apply local_points_pc with (d := 0%Z) in Hloc; [|lia]. vm_compute in Hloc. destruct Hloc as [Hlo _]. now destruct Hlo. }
  subst r. rewrite Er. change (vort_dir (m_dim m) 0) with 2%Z. rewrite moved_z. unfold curl, rank_view.
  change (next_dir 2) with 0%Z. change (next_dir 0) with 1%Z. cbn [shift setc pc Z.eqb Pos.eqb].
  change (known m D 0 1 (2, 0 + -1, 0)%Z) with false. change (known m D 0 1 (2 + -1, 0 + -1, 0)%Z) with true.
  change (known m D 0 0 (2 + -1, 0, 0)%Z) with true. change (known m D 0 0 (2 + -1, 0 + -1, 0)%Z) with true.
  unfold ones. assert (Hlt : crd m 1 0 (pc (2, 0, 0)%Z 0 - 1) < crd m 1 0 (pc (2, 0, 0)%Z 0)) by (apply (mf_incr _ _ Fa); vm_compute; repeat split; congruence).
  intros C. assert (X : (0 - 1) / (crd m 1 0 (pc (2, 0, 0)%Z 0) - crd m 1 0 (pc (2, 0, 0)%Z 0 - 1)) <> 0).
  { apply Rmult_integral_contrapositive_currified; [lra|]. apply Rinv_neq_0_compat. lra. }
  cbn [pc] in X. change (0 =? 0)%Z with true in X. cbv iota in X. lra.
Qed.
Print Assumptions vorticity_cut_wall_refuted.

(** In three dimensions the x component (likewise the y component) is stored one
    cell off. *)
Definition tilt (f : Z) (p : pt) : R := if (f =? 1)%Z then IZR (pc p 0 * pc p 2) else 0.
Theorem vorticity_x_displaced_refuted : exists m D types values F u d' F' l v p,
  mesh_setup m D /\ bc_fits m types /\ readable m F /\ stored_velocity m F u /\
  vort_main 5 m D types values "o" 0 0 1 (one_disk F) = Ok (Some d') /\ d' (solution_path "o" 0) = Some F' /\
  f_sets F' "/wx" = Some l /\ inner_vertex m 0 p /\ nthZ l (natural (vort_sizes m 0) p) = Some v /\ v <> curl m u 0 p.
Proof.
  set (m := c3_mesh). set (D := c3_dec). assert (Hs : mesh_setup m D) by apply c3_setup. pose proof (setup_facts _ _ Hs) as Fa. pose proof c3_fits as Hb.
  set (F := field_file m tilt). assert (HR : readable m F) by (eapply field_readable; eauto).
  assert (HS : stored_velocity m F tilt) by (eapply field_stored; eauto using c3_not_periodic).
  destruct (vorticity_run m D _ (fun _ _ => 0) "o" 5 0 0 1 (one_disk F) Hs Hb ltac:(lia) ltac:(lia) ltac:(lia) (one_step F m HR)) as (d' & E & H1 & _).
  destruct (H1 0%Z F ltac:(lia) ltac:(lia) (one_disk_at F)) as (F' & HF' & _).
  destruct (vorticity_xy_displaced m D _ (fun _ _ => 0) "o" 5 0 0 1 (one_disk F) 0 F d' F' 0 Hs Hb ltac:(lia) ltac:(lia) ltac:(lia) (one_step F m HR) E ltac:(lia) ltac:(lia)
    (one_disk_at F) HF' eq_refl ltac:(lia)) as (l & El & _ & Hl).
  assert (Hin : inner_vertex m 0 (1, 1, 1)%Z).
  { split.
    - intros d Hd. assert (d = 0 \/ d = 1 \/ d = 2)%Z as [->|[->| ->]] by lia; vm_compute; split; congruence.
    - intros d Hd Hne. right. change (m_dim m) with 3%Z in Hd. assert (d = 1 \/ d = 2)%Z as [->| ->] by lia; vm_compute; split; congruence. }
  destruct (Hl _ (proj1 Hin)) as (v & Ev & Hv). specialize (Hv tilt HS Hin ltac:(right; vm_compute; congruence)).
  exists m, D, c3_types, (fun _ _ => 0), F, tilt, d', F', l, v, (1, 1, 1)%Z.
  split; [exact Hs|]. split; [exact Hb|]. split; [exact HR|]. split; [exact HS|]. split; [exact E|]. split; [exact HF'|]. split; [exact El|].
  split; [exact Hin|]. split; [exact Ev|]. rewrite Hv. unfold curl. change (next_dir 0) with 1%Z. change (next_dir 1) with 2%Z.
  assert (Hlt : crd m 1 2 (pc (1, 1, 1)%Z 2 - 1) < crd m 1 2 (pc (1, 1, 1)%Z 2)) by (apply (mf_incr _ _ Fa); vm_compute; repeat split; congruence).
  unfold tilt. cbn [shift setc pc Z.eqb Pos.eqb Z.add Z.mul Pos.mul Z.pos_sub]. cbn in Hlt |- *.
  intros C. assert (X : (1 - 0) / (crd m 1 2 1 - crd m 1 2 0) <> 0).
  { apply Rmult_integral_contrapositive_currified; [lra|]. apply Rinv_neq_0_compat. lra. }
  lra.
Qed.
Print Assumptions vorticity_x_displaced_refuted.
