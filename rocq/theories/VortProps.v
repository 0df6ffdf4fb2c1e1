(** C51: the vorticity utility. *)
From Coq Require Import String ZifyBool.
From Verif Require Import Prelude ZSum RSum TypesModel GridModel GridSpec IndexModel IndexSpec IndexProof BoundaryModel BoundarySpec BoundaryProof
  OperatorModel OperatorSpec BStateProof MatModel NSModel NSProof NameModel NameProof DriverModel DriverSpec ConvModel ConvSpec ConvProof ConvValue ConvTotal ExampleSetup
  VortModel VortSpec VortProof GridFile VortFile VortValue VortCurl.
Local Open Scope R_scope.

(** The components stored: z in 2D, x, y and z in 3D. *)
Definition component (m : mesh) (a : Z) : Prop := if (m_dim m =? 2)%Z then a = 2%Z else (0 <= a < 3)%Z.

Lemma component_k m D a : mesh_setup m D -> component m a -> exists k, ok_comp m k /\ vort_dir (m_dim m) k = a.
Proof.
  intros Hs Ha. pose proof (mf_dim _ _ (setup_facts _ _ Hs)) as Hdim. unfold component, ok_comp, n_vort, vort_dir in *.
  destruct Hdim as [E|E]; rewrite E in *; cbn [Z.eqb Pos.eqb] in *; [exists 0%Z|exists a]; lia.
Qed.
Lemma holds_weaken m a (w w' : pt -> R -> Prop) F : (forall p v, vort_point m a p -> w p v -> w' p v) -> holds_vorticity m a w F -> holds_vorticity m a w' F.
Proof. intros H (l & A & B & C). exists l. split; [exact A|]. split; [exact B|]. intros p Hp. destruct (C p Hp) as (v & E & W). exists v. auto. Qed.

(** Computing the vorticity never fails and never reads outside an array, for
    any mesh and decomposition, velocity and state of the boundary. *)
Theorem vorticity_in_bounds : forall m D types values hist B x, mesh_setup m D -> bc_fits m types ->
  boundary_after m D types values hist B ->
  exists VD cs ws, vort_dmdas m D = Ok VD /\
    mapM (fun c => mapM (fun e => vort_coord m c e) (zrange 0 3)) (zrange 0 (n_vort (m_dim m))) = Ok cs /\
    calcVorticity m D VD B x = Ok ws.
Proof.
  intros m D types values hist B x Hs Hb HB. destruct (coords_total m D Hs) as (cs & Ec). exists (vdec m D), cs. eexists.
  split; [now apply vort_dmdas_ok|]. split; [exact Ec|]. exact (calc_value m D types values hist B x Hs Hb HB).
Qed.
Print Assumptions vorticity_in_bounds.

(** A run over the steps bg, bg + step, ... <= ed ends; in the file of every one
    of those steps it adds (or replaces) the vorticity datasets and nothing
    else; in the grid file it adds (or replaces) the coordinates of the points
    of the vorticity and nothing else; it changes no other file. *)
Theorem vorticity_run : forall m D types values out fuel bg ed step d,
  mesh_setup m D -> bc_fits m types -> (0 <= bg)%Z -> (0 < step)%Z -> (ed - bg < Z.of_nat fuel)%Z ->
  (forall k, (0 <= k)%Z -> (bg + k * step <= ed)%Z -> exists F, d (solution_path out (bg + k * step)) = Some F /\ readable m F) ->
  exists d', vort_main fuel m D types values out bg ed step d = Ok (Some d') /\
    (forall k F, (0 <= k)%Z -> (bg + k * step <= ed)%Z -> d (solution_path out (bg + k * step)) = Some F ->
       exists F', d' (solution_path out (bg + k * step)) = Some F' /\ only_vorticity m F F' /\
         forall a, component m a -> holds_vorticity m a (fun _ _ => True) F') /\
    (forall p, p <> (out ++ "/grid.h5")%string -> (forall k, (0 <= k)%Z -> (bg + k * step <= ed)%Z -> p <> solution_path out (bg + k * step)) -> d' p = d p) /\
    exists G, d' (out ++ "/grid.h5")%string = Some G /\
      (forall a, component m a -> holds_coords (vort_group a) (vort_sizes m a) (vort_crd m a) G) /\
      (forall G0 nm, d (out ++ "/grid.h5")%string = Some G0 ->
         (forall a e, component m a -> (0 <= e < 3)%Z -> nm <> ("/" ++ vort_group a ++ "/" ++ axis_name e)%string) -> f_sets G nm = f_sets G0 nm).
Proof.
  intros m D types values out fuel bg ed step d Hs Hb Hbg Hst Hfu Hrd.
  destruct (main_value m D types values out fuel bg ed step d Hs Hb Hbg Hst Hfu Hrd) as (d' & E & H1 & H2 & G & EG & _ & _ & HG1 & HG2).
  exists d'. split; [exact E|]. split; [|split; [exact H2|]].
  - intros k F Hk Hle HF. destruct (H1 k F Hk Hle HF) as (F' & HF' & Ho & hist & U' & B' & _ & _ & Hh). exists F'. split; [exact HF'|]. split; [exact Ho|].
    intros a Ha. destruct (component_k m D a Hs Ha) as (kk & Hkk & <-). eapply holds_weaken; [|apply Hh; exact Hkk]. auto.
  - exists G. split; [exact EG|]. split.
    + intros a Ha. destruct (component_k m D a Hs Ha) as (kk & Hkk & <-). now apply HG2.
    + intros G0 nm E0 Hnm. rewrite HG1; [unfold dget, grid_path; now rewrite E0|]. intros (k & e & Hk & He & ->). apply (Hnm (vort_dir (m_dim m) k) e); auto.
      unfold ok_comp, n_vort, component, vort_dir in *. destruct (m_dim m =? 2)%Z; lia.
Qed.
Print Assumptions vorticity_run.

(** The z component. At every vertex that is not on a non-periodic boundary the
    value stored is the circulation of the velocity in the file around the
    vertex, per unit area, whatever the decomposition and the boundary
    conditions. *)
Theorem vorticity_z : forall m D types values out fuel bg ed step d k F d' F',
  mesh_setup m D -> bc_fits m types -> (0 <= bg)%Z -> (0 < step)%Z -> (ed - bg < Z.of_nat fuel)%Z ->
  (forall k, (0 <= k)%Z -> (bg + k * step <= ed)%Z -> exists F, d (solution_path out (bg + k * step)) = Some F /\ readable m F) ->
  vort_main fuel m D types values out bg ed step d = Ok (Some d') ->
  (0 <= k)%Z -> (bg + k * step <= ed)%Z -> d (solution_path out (bg + k * step)) = Some F -> d' (solution_path out (bg + k * step)) = Some F' ->
  holds_vorticity m 2 (fun p v => forall u, stored_velocity m F u -> inner_vertex m 2 p -> v = curl m u 2 p) F'.
Proof.
  intros m D types values out fuel bg ed step d k F d' F' Hs Hb Hbg Hst Hfu Hrd E Hk Hle HF HF'.
  destruct (main_value m D types values out fuel bg ed step d Hs Hb Hbg Hst Hfu Hrd) as (d1 & E1 & H1 & _). assert (d1 = d') by congruence. subst d1.
  destruct (H1 k F Hk Hle HF) as (F1 & HF1 & _ & hist & U' & B' & HB & HU & Hh). assert (F1 = F') by congruence. subst F1.
  destruct (component_k m D 2 Hs) as (kk & Hkk & Ek). { unfold component. destruct (m_dim m =? 2)%Z; lia. }
  rewrite <- Ek. eapply holds_weaken; [|apply Hh; exact Hkk]. cbv beta. intros p v Hp Hv u Hu Hin. rewrite Ek in Hin.
  assert (Hmv : may_move m (vort_dir (m_dim m) kk) p) by (rewrite Ek; left; apply moved_z). rewrite <- Ek in Hin.
  rewrite (stored_inner m D types values _ U' F u kk p v Hs Hkk HU Hu Hin Hmv Hv). rewrite Ek, moved_z. reflexivity.
Qed.
Print Assumptions vorticity_z.

(** It is exact for velocities linear in the coordinates: the stored value is
    du_y/dx - du_x/dy on every mesh. *)
Theorem vorticity_of_linear_flow : forall m D types values out fuel bg ed step d k F d' F' c g,
  mesh_setup m D -> bc_fits m types -> (0 <= bg)%Z -> (0 < step)%Z -> (ed - bg < Z.of_nat fuel)%Z ->
  (forall k, (0 <= k)%Z -> (bg + k * step <= ed)%Z -> exists F, d (solution_path out (bg + k * step)) = Some F /\ readable m F) ->
  vort_main fuel m D types values out bg ed step d = Ok (Some d') ->
  (0 <= k)%Z -> (bg + k * step <= ed)%Z -> d (solution_path out (bg + k * step)) = Some F -> d' (solution_path out (bg + k * step)) = Some F' ->
  stored_velocity m F (linear_velocity m c g) ->
  holds_vorticity m 2 (fun p v => inner_vertex m 2 p -> v = g 1%Z 0%Z - g 0%Z 1%Z) F'.
Proof.
  intros m D types values out fuel bg ed step d k F d' F' c g Hs Hb Hbg Hst Hfu Hrd E Hk Hle HF HF' Hl.
  eapply holds_weaken; [|exact (vorticity_z m D types values out fuel bg ed step d k F d' F' Hs Hb Hbg Hst Hfu Hrd E Hk Hle HF HF')]. cbv beta. intros p v Hp Hv Hin. rewrite (Hv _ Hl Hin).
  exact (curl_linear m D c g 2 p Hs ltac:(lia) ltac:(lia) Hp).
Qed.
Print Assumptions vorticity_of_linear_flow.

(** On a non-periodic boundary, away from its ends and where it is not cut by
    the decomposition, the value is the circulation of the velocity completed
    by the ghost values of the boundary conditions. *)
Theorem vorticity_at_walls : forall m D types values hist B out t U q d F U' q' B' d' F' u,
  mesh_setup m D -> bc_fits m types -> boundary_after m D types values hist B ->
  d (solution_path out t) = Some F -> readable m F ->
  vort_step m D (default_dec (ds_np D) (vort_n m)) out (U, q, B, d) t = Ok (U', q', B', d') ->
  extends_box m D B' U' u -> d' (solution_path out t) = Some F' ->
  holds_vorticity m 2 (fun p v => forall e, wall_vertex m D 2 e p -> v = curl m u 2 p) F'.
Proof.
  intros m D types values hist B out t U q d F U' q' B' d' F' u Hs Hb HB HF Hrd E HX HF'.
  destruct (step_value m D types values hist B out t U q d F Hs Hb HB HF Hrd) as (U1 & q1 & B1 & d1 & F1 & E1 & HB1 & HU & HF1 & _ & _ & Hh).
  unfold vdec in E1. rewrite E in E1. injection E1 as <- <- <- <-. rewrite HF' in HF1. injection HF1 as <-.
  destruct (component_k m D 2 Hs) as (kk & Hkk & Ek). { unfold component. destruct (m_dim m =? 2)%Z; lia. }
  rewrite <- Ek. eapply holds_weaken; [|apply Hh; exact Hkk]. cbv beta. intros p v Hp Hv e Hw. rewrite Ek in Hw.
  destruct (stored_view m D types values _ B' U' u kk p v Hs Hb HB1 HX Hkk Hv) as (r & Hr & Hl & ->). rewrite Ek, moved_z.
  apply curl_ext. intros g y Hy. unfold rank_view. now rewrite (wall_known m D kk r p g y e Hs Hkk Hr Ek Hl Hw Hy).
Qed.
Print Assumptions vorticity_at_walls.

(** The x and y components of a three-dimensional flow: the value stored for
    cell i along the axis of the component is the circulation of cell i - 1. *)
Theorem vorticity_xy_displaced : forall m D types values out fuel bg ed step d k F d' F' a,
  mesh_setup m D -> bc_fits m types -> (0 <= bg)%Z -> (0 < step)%Z -> (ed - bg < Z.of_nat fuel)%Z ->
  (forall k, (0 <= k)%Z -> (bg + k * step <= ed)%Z -> exists F, d (solution_path out (bg + k * step)) = Some F /\ readable m F) ->
  vort_main fuel m D types values out bg ed step d = Ok (Some d') ->
  (0 <= k)%Z -> (bg + k * step <= ed)%Z -> d (solution_path out (bg + k * step)) = Some F -> d' (solution_path out (bg + k * step)) = Some F' ->
  m_dim m = 3%Z -> (a = 0 \/ a = 1)%Z ->
  holds_vorticity m a (fun p v => forall u, stored_velocity m F u -> inner_vertex m a p ->
    periodic_dir m a = true \/ (1 <= pc p a)%Z -> v = curl m u a (shift p a (-1))) F'.
Proof.
  intros m D types values out fuel bg ed step d k F d' F' a Hs Hb Hbg Hst Hfu Hrd E Hk Hle HF HF' H3 Ha.
  destruct (main_value m D types values out fuel bg ed step d Hs Hb Hbg Hst Hfu Hrd) as (d1 & E1 & H1 & _). assert (d1 = d') by congruence. subst d1.
  destruct (H1 k F Hk Hle HF) as (F1 & HF1 & _ & hist & U' & B' & HB & HU & Hh). assert (F1 = F') by congruence. subst F1.
  assert (Hkk : ok_comp m a) by (unfold ok_comp, n_vort; rewrite H3; cbn [Z.eqb Pos.eqb]; lia).
  assert (Ek : vort_dir (m_dim m) a = a) by (unfold vort_dir; rewrite H3; reflexivity).
  specialize (Hh a Hkk). rewrite Ek in Hh. eapply holds_weaken; [|exact Hh]. cbv beta. intros p v Hp Hv u Hu Hin Hmv.
  assert (Hm : may_move m (vort_dir (m_dim m) a) p) by (rewrite Ek; right; auto). rewrite <- Ek in Hin.
  rewrite (stored_inner m D types values _ U' F u a p v Hs Hkk HU Hu Hin Hm Hv). rewrite Ek.
  unfold moved. rewrite H3. destruct Ha as [-> | ->]; reflexivity.
Qed.
Print Assumptions vorticity_xy_displaced.

(** Positions: along the two directions of the plane of a component the
    velocity points used lie on both sides of the vertex, or at its
    coordinate. *)
Theorem vorticity_positions : forall m D a b c j, mesh_setup m D -> component m a ->
  (0 <= b < m_dim m)%Z -> (0 <= c < m_dim m)%Z -> b <> a -> c <> a -> b <> c -> (0 <= j <= m_n m 3 b)%Z ->
  crd m b b (j - 1) = crd m 4 b j /\ crd m c b (j - 1) < crd m 4 b j < crd m c b j.
Proof. intros m D a b c j Hs Ha Hb Hc _ _ Hbc Hj. split; [now apply (own_vertex m D)|]. apply (bracket m D); auto. Qed.
Print Assumptions vorticity_positions.

(** The curl of a pressure gradient (the one of the solver) vanishes. *)
Theorem curl_of_gradient : forall m D P a p, mesh_setup m D -> component m a -> vort_point m a p ->
  (forall d, (0 <= d < m_dim m)%Z -> d <> a -> (1 <= pc p d <= m_n m 3 d - 1)%Z) ->
  curl m (gradient_at m false P) a p = 0.
Proof.
  intros m D P a p Hs Ha Hp Hin. pose proof (mf_dim _ _ (setup_facts _ _ Hs)). unfold component in Ha. apply (curl_gradient m D); auto; destruct (Z.eqb_spec (m_dim m) 2); lia.
Qed.
Print Assumptions curl_of_gradient.

(** Stokes: the sum of vorticity times area over any block of vertices of a
    plane is the circulation along the boundary of the block. *)
Theorem vorticity_circulation : forall m D u a p b0 b1 c0 c1, mesh_setup m D -> component m a ->
  (0 <= b0 <= b1)%Z -> (b1 <= m_n m 3 (next_dir a) + 1)%Z -> (0 <= c0 <= c1)%Z -> (c1 <= m_n m 3 (next_dir (next_dir a)) + 1)%Z ->
  zsum (fun j => zsum (fun k => let q := setc (setc p (next_dir a) j) (next_dir (next_dir a)) k in dual_area m a q * curl m u a q) c0 c1) b0 b1
  = circulation m u a p b0 b1 c0 c1.
Proof.
  intros m D u a p b0 b1 c0 c1 Hs Ha. pose proof (mf_dim _ _ (setup_facts _ _ Hs)). unfold component in Ha.
  intros. apply (stokes m D); auto; destruct (Z.eqb_spec (m_dim m) 2); lia.
Qed.
Print Assumptions vorticity_circulation.

(** With a step that is not positive the utility never ends. *)
Theorem vorticity_bad_step_refuted : forall m D types values out bg ed step d fuel, mesh_setup m D -> bc_fits m types ->
  (step <= 0)%Z -> (bg <= ed)%Z -> vort_main fuel m D types values out bg ed step d = Ok None.
Proof.
  intros m D types values out bg ed step d fuel Hs Hb Hst Hle. pose proof (setup_facts _ _ Hs) as F. unfold vort_main.
  destruct (mapM_ex (fun r => createBoundary m D r types values) (fun _ _ => True) (zrange 0 (nranks D))) as (bl & -> & _).
  { intros r Hr. apply zrange_In in Hr. destruct (create_boundary_lemma m D r types values F Hr (fun f loc A C => proj1 (Hb f loc A C))) as (b & Eb & _). eauto. }
  cbn [bind]. rewrite vort_dmdas_ok by auto. cbn [bind]. destruct (coords_total m D Hs) as (cs & ->). cbn [bind].
  now rewrite xdmf_diverges.
Qed.
Print Assumptions vorticity_bad_step_refuted.
