(** Properties C31, C32, C33, C34, C35, C36. *)
From Coq Require Import String ZifyBool.
From Verif Require Import Prelude ZSum RSum TypesModel GridModel GridSpec GridProof MeshProof IndexModel IndexSpec IndexProof
  BoundaryModel BoundarySpec BoundaryProof OperatorModel OperatorSpec OperatorProof BStateProof MatModel ConvModel ConvProof DeltaModel
  DeltaSpec DeltaProps ProbeModel ProbeSpec ProbeProof ProbeInterp ProbeRun ProbeUse.
Local Open Scope R_scope.

(** C36. Exactly four words are accepted; any other word, a missing entry or
    missing parameters are rejected. *)
Theorem scheme_words : forall name node,
  (forall word, node name = Some word ->
     ((exists s, createTimeIntegration name (Some node) = Ok s) <->
      In word ["EULER_EXPLICIT"; "EULER_IMPLICIT"; "ADAMS_BASHFORTH_2"; "CRANK_NICOLSON"]%string) /\
     (~ In word ["EULER_EXPLICIT"; "EULER_IMPLICIT"; "ADAMS_BASHFORTH_2"; "CRANK_NICOLSON"]%string ->
      createTimeIntegration name (Some node) = Err PETSC_ERR_ARG_OUTOFRANGE)) /\
  (node name = None -> createTimeIntegration name (Some node) = Err PETSC_ERR_ARG_OUTOFRANGE) /\
  createTimeIntegration name None = Err PETSC_ERR_ARG_OUTOFRANGE.
Proof.
  intros name node. split; [|split; [intros E; unfold createTimeIntegration; now rewrite E|reflexivity]].
  intros word E. unfold createTimeIntegration. rewrite E. cbn [In].
  destruct (String.eqb_spec word "EULER_EXPLICIT"); [subst; split; [split; eauto|tauto]|].
  destruct (String.eqb_spec word "EULER_IMPLICIT"); [subst; split; [split; eauto|tauto]|].
  destruct (String.eqb_spec word "ADAMS_BASHFORTH_2"); [subst; split; [split; eauto|tauto]|].
  destruct (String.eqb_spec word "CRANK_NICOLSON"); [subst; split; [split; eauto 10|tauto]|].
  split; [|reflexivity]. split; [intros [s X]; discriminate|]. intros [X|[X|[X|[X|[]]]]]; congruence.
Qed.
Print Assumptions scheme_words.

(** C36. Every accepted scheme announces as many explicit terms as it has
    weights, and advances a constant right-hand side exactly. *)
Theorem scheme_consistent : forall name params s, createTimeIntegration name params = Ok s ->
  sc_nexplicit s = lenZ (sc_explicit s) /\ forall c t dt, scheme_step s (fun _ => c) t dt = c * dt.
Proof.
  intros name params s H. unfold createTimeIntegration in H. destruct params as [node|]; [|discriminate]. destruct (node name) as [w|]; [|discriminate].
  destruct (w =? "EULER_EXPLICIT")%string; [injection H as <-|destruct (w =? "EULER_IMPLICIT")%string; [injection H as <-|
    destruct (w =? "ADAMS_BASHFORTH_2")%string; [injection H as <-|destruct (w =? "CRANK_NICOLSON")%string; [injection H as <-|discriminate]]]];
    (split; [reflexivity|]); intros; unfold scheme_step; cbn [sc_implicit sc_explicit explicit_part Euler_Explicit Euler_Implicit Adams_Bashforth_2 Crank_Nicolson]; field.
Qed.
Print Assumptions scheme_consistent.

(** C36. Adams-Bashforth and Crank-Nicolson integrate right-hand sides that are
    affine in time exactly; the Euler schemes miss by the slope times dt^2/2. *)
Theorem scheme_order : forall name node word s a b t dt, node name = Some word -> createTimeIntegration name (Some node) = Ok s ->
  (In word ["ADAMS_BASHFORTH_2"; "CRANK_NICOLSON"]%string -> scheme_step s (fun x => a + b * x) t dt = affine_integral a b t dt) /\
  (word = "EULER_EXPLICIT"%string -> scheme_step s (fun x => a + b * x) t dt = affine_integral a b t dt - b * dt ^ 2 / 2) /\
  (word = "EULER_IMPLICIT"%string -> scheme_step s (fun x => a + b * x) t dt = affine_integral a b t dt + b * dt ^ 2 / 2).
Proof.
  intros name node word s a b t dt E H. unfold createTimeIntegration in H. rewrite E in H. cbn [In].
  repeat split; intros W; [destruct W as [<-|[<-|[]]]| |]; try subst word; cbn in H; injection H as <-;
    unfold scheme_step, affine_integral; cbn [sc_implicit sc_explicit explicit_part Euler_Explicit Euler_Implicit Adams_Bashforth_2 Crank_Nicolson]; field.
Qed.
Print Assumptions scheme_order.

Example scheme_case : exists s, createTimeIntegration "convection" (Some (fun k => if (k =? "convection")%string then Some "ADAMS_BASHFORTH_2"%string else None)) = Ok s /\
  sc_nexplicit s = 2%Z /\ scheme_step s (fun x => 3 + 2 * x) 1 (1 / 2) = 11 / 4.
Proof. exists Adams_Bashforth_2. split; [reflexivity|]. split; [reflexivity|]. unfold scheme_step. cbn [sc_implicit sc_explicit explicit_part Adams_Bashforth_2]. lra. Qed.

(** C32. A location inside the span of the gridlines of a velocity component
    belongs to exactly one rank, a location outside to none, and every rank can
    tell. *)
Theorem point_owner : forall m D f loc, mesh_setup m D -> (0 <= f < m_dim m)%Z ->
  ((forall d, (0 <= d < m_dim m)%Z -> crd m f d 0 <= loc d < crd m f d (m_n m f d)) ->
     exists r0, (0 <= r0 < nranks D)%Z /\ forall r, (0 <= r < nranks D)%Z -> isPointOnLocalProc m D r f (pvec m loc) = Ok (r =? r0)%Z) /\
  (~ (forall d, (0 <= d < m_dim m)%Z -> crd m f d 0 <= loc d < crd m f d (m_n m f d)) ->
     forall r, (0 <= r < nranks D)%Z -> isPointOnLocalProc m D r f (pvec m loc) = Ok false).
Proof.
  intros m D f loc Hs Hf. split; [|intros Hn r Hr; exact (not_owned m D Hs f Hf loc r Hr Hn)].
  intros Hl. destruct (owner_point m D Hs f Hf loc Hl) as (p & Hp & _ & Ho). pose proof (mf_dec _ _ (setup_facts _ _ Hs) f (or_introl Hf)) as Hd.
  destruct (owner_exists D _ f p Hd Hp) as (r0 & Hr0 & Hin). exists r0. split; [exact Hr0|]. intros r Hr.
  destruct (on_proc_dec m D Hs f Hf r loc Hr) as (b & Eb & _). destruct (Z.eqb_spec r r0) as [->|Hne].
  - now apply Ho.
  - destruct b; [|exact Eb]. exfalso. apply Hne. apply (Ho r Hr) in Eb. eapply owner_unique; eauto.
Qed.
Print Assumptions point_owner.

(** C32 does not extend to the pressure: the rank at the upper end reads past
    the coordinates of the pressure points. *)
Theorem pressure_point_refuted : forall m D r loc, mesh_setup m D -> (0 <= r < nranks D)%Z ->
  d_ed D 3 0 r = m_n m 3 0 -> (d_bg D 3 0 r < d_ed D 3 0 r)%Z -> crd m 3 0 (d_bg D 3 0 r) <= loc 0%Z ->
  isPointOnLocalProc m D r 3 (pvec m loc) = UB.
Proof.
  intros m D r loc Hs Hr Hed Hbe Hx. pose proof (setup_facts m D Hs) as F. pose proof (mf_dim _ _ F) as Hdm.
  unfold isPointOnLocalProc. rewrite (zrange_cons 0) by (destruct Hdm; lia). cbn [on_dirs]. rewrite (pvec_rd m loc 0) by (destruct Hdm; auto; lia). cbn [bind].
  pose proof (d_range D (m_n m 3) 3 0 r (mf_dec _ _ F 3%Z (or_intror eq_refl)) ltac:(lia) Hr) as Hrange.
  rewrite (crd_read m D 3 0) by (auto; try (right; reflexivity); destruct Hdm; lia). cbn [bind].
  destruct (Rlt_dec (loc 0%Z) (crd m 3 0 (d_bg D 3 0 r))); [lra|]. rewrite Hed.
  pose proof Hs as (mn & mx & per & w & np & Hg & Hm & _).
  destruct (mesh_pressure _ _ _ _ _ _ Hm 0%Z ltac:(destruct Hdm; lia)) as (En & _ & Hub). rewrite (proj1 (Hub (m_n m 3 0) ltac:(lia))). reflexivity.
Qed.
Print Assumptions pressure_point_refuted.
Example pressure_point_case : exists m D r loc, mesh_setup m D /\ (0 <= r < nranks D)%Z /\
  d_ed D 3 0 r = m_n m 3 0 /\ (d_bg D 3 0 r < d_ed D 3 0 r)%Z /\ crd m 3 0 (d_bg D 3 0 r) <= loc 0%Z <= crd m 3 0 (m_n m 3 0 - 1).
Proof.
  exists (un_mesh false false), (un_dec false false), 1%Z, (fun _ => crd (un_mesh false false) 3 0 6). split; [apply un_setup|].
  split; [change (nranks (un_dec false false)) with 2%Z; lia|]. split; [reflexivity|].
  change (d_bg (un_dec false false) 3 0 1) with 4%Z. change (d_ed (un_dec false false) 3 0 1) with 8%Z. change (m_n (un_mesh false false) 3 0) with 8%Z.
  split; [lia|]. split; left; apply (pcoord_incr _ _ _ _ _ (un_setup false false)); rewrite ?un_dim; change (m_n (un_mesh false false) 3 0) with 8%Z; lia.
Qed.

(** C31. Runs of a point probe at a location inside the span of the gridlines:
    exactly one rank writes; it writes one line per scheduled step, with the
    time of the step and the interpolant of the component (periodic images and
    0 stand for the points out of the domain). *)
Theorem point_probe_run : forall m D c loc calls sel w, mesh_setup m D -> (0 <= pc_field c < m_dim m)%Z -> pc_nmonitor c <> 0%Z ->
  (forall d, (0 <= d < m_dim m)%Z -> crd m (pc_field c) d 0 <= loc d < crd m (pc_field c) d (m_n m (pc_field c) d)) ->
  selects (scheduled c) calls sel -> (forall n t U P, In (n, t, U, P) sel -> field_values m D (pc_field c) U P (w (n, t, U, P))) ->
  exists r0, (0 <= r0 < nranks D)%Z /\ forall r, (0 <= r < nranks D)%Z -> exists P0 P1 lines,
    probePointInit m D r (pc_field c) loc = Ok P0 /\
    run_probe m D c (probePointMonitorVec m D r (pc_field c)) P0 calls = Ok (P1, lines) /\
    if (r =? r0)%Z then Forall2 (fun cl tv => fst tv = call_time cl /\ interpolant m (pc_field c) (probe_ext m (pc_field c) (w cl)) loc (snd tv)) sel lines
    else lines = [].
Proof.
  intros m D c loc calls sel w Hs Hf Hn Hl Hsel Hw. set (f := pc_field c) in *. pose proof (setup_facts m D Hs) as F.
  destruct (proj1 (point_owner m D f loc Hs Hf) Hl) as (r0 & Hr0 & Ho). exists r0. split; [exact Hr0|]. intros r Hr.
  destruct (init_point m D Hs f Hf loc r Hr) as (it & Ei & Hit). exists (mkPP it (map (fun _ => 0) (ghosted_points (m_dim m) D f r))).
  assert (Hit' : it = None \/ (forall d, (0 <= d < m_dim m)%Z -> crd m f d 0 <= loc d < crd m f d (m_n m f d)) /\ it = Some (the_interp m f loc) /\ isPointOnLocalProc m D r f (pvec m loc) = Ok true) by (destruct Hit as [[A _]|A]; auto).
  destruct (feed_point m D Hs f Hf loc r it w sel Hr Hit' Hw (fun _ => 0) [] ltac:(reflexivity)) as (e1 & E).
  eexists. eexists. split; [exact Ei|]. split.
  - rewrite (run_probe_sel m D c _ _ calls sel F (or_introl Hf) Hn Hsel). fold f. exact E.
  - specialize (Ho r Hr). destruct Hit as [[-> On]|(_ & -> & On)]; rewrite On in Ho; injection Ho as Er; rewrite <- Er; cbn [app]; [reflexivity|].
    clear -Hs Hf Hl. induction sel as [|cl t IH]; cbn [map]; constructor; [|exact IH]. split; [reflexivity|]. cbn [snd]. apply (wsum_interpolant m D Hs f Hf loc Hl).
Qed.
Print Assumptions point_probe_run.

(** C31. Below the last gridline only points of the component matter: the value
    is the interpolant of any function that agrees with the component at its
    points. *)
Theorem point_probe_inner : forall m D c loc calls sel w, mesh_setup m D -> (0 <= pc_field c < m_dim m)%Z -> pc_nmonitor c <> 0%Z ->
  (forall d, (0 <= d < m_dim m)%Z -> crd m (pc_field c) d 0 <= loc d <= crd m (pc_field c) d (m_n m (pc_field c) d - 1)) ->
  selects (scheduled c) calls sel -> (forall n t U P, In (n, t, U, P) sel -> field_values m D (pc_field c) U P (w (n, t, U, P))) ->
  exists r0 P0 P1 lines, (0 <= r0 < nranks D)%Z /\ probePointInit m D r0 (pc_field c) loc = Ok P0 /\
    run_probe m D c (probePointMonitorVec m D r0 (pc_field c)) P0 calls = Ok (P1, lines) /\
    Forall2 (fun cl tv => fst tv = call_time cl /\
      forall e, (forall q, interior (m_n m (pc_field c)) q -> e q = w cl q) -> interpolant m (pc_field c) e loc (snd tv)) sel lines.
Proof.
  intros m D c loc calls sel w Hs Hf Hn Hl Hsel Hw. set (f := pc_field c) in *. pose proof (setup_facts m D Hs) as F.
  assert (Hl' : forall d, (0 <= d < m_dim m)%Z -> crd m f d 0 <= loc d < crd m f d (m_n m f d)).
  { intros d Hd. specialize (Hl d Hd). pose proof (mf_np _ _ F f d (or_introl Hf) ltac:(destruct (mf_dim _ _ F); lia)).
    pose proof (mf_incr _ _ F f d (m_n m f d - 1) (m_n m f d) Hf Hd ltac:(lia) ltac:(lia) ltac:(lia)). lra. }
  destruct (point_probe_run m D c loc calls sel w Hs Hf Hn Hl' Hsel Hw) as (r0 & Hr0 & Hrun).
  destruct (Hrun r0 Hr0) as (P0 & P1 & lines & Ei & Er & Hlines). rewrite Z.eqb_refl in Hlines. exists r0, P0, P1, lines. repeat (split; [assumption|]).
  fold f in Hlines. clear -Hs Hf Hl Hl' Hlines. induction Hlines as [|cl tv sel lines [Et Hi] Hlines IH]; constructor; [|exact IH]. split; [exact Et|].
  intros e He. rewrite (interpolant_eq m D Hs f Hf _ loc _ _ Hi (wsum_interpolant m D Hs f Hf loc Hl' (probe_ext m f (w cl)))).
  rewrite (wsum_inner m D Hs f Hf loc Hl' (w cl) e); [apply (wsum_interpolant m D Hs f Hf loc Hl')|intros d Hd; apply Hl; auto|exact He].
Qed.
Print Assumptions point_probe_inner.

(** C31. The interpolant is unique, equal to any multilinear function it
    samples, and between the values at the corners of the cell. *)
Theorem interpolant_unique : forall m D f w loc v v', mesh_setup m D -> (0 <= f < m_dim m)%Z ->
  interpolant m f w loc v -> interpolant m f w loc v' -> v = v'.
Proof. intros m D f w loc v v' Hs Hf. exact (interpolant_eq m D Hs f Hf w loc v v'). Qed.
Print Assumptions interpolant_unique.
Theorem interpolant_exact : forall m D f g loc v, mesh_setup m D -> (0 <= f < m_dim m)%Z -> multilinear g ->
  interpolant m f (at_point m f g) loc v -> v = at_loc m g loc.
Proof. intros m D f g loc v Hs Hf. exact (interpolant_at m D Hs f Hf g loc v). Qed.
Print Assumptions interpolant_exact.
Theorem interpolant_bounds : forall m D f w loc v a b, mesh_setup m D -> (0 <= f < m_dim m)%Z -> interpolant m f w loc v ->
  (forall c q, in_cell m f c loc -> corner (m_dim m) c q -> a <= w q <= b) -> a <= v <= b.
Proof. intros m D f w loc v a b Hs Hf. exact (interpolant_between m D Hs f Hf w loc v a b). Qed.
Print Assumptions interpolant_bounds.

(** A run on a concrete mesh: steps 0, 1 and 2 with a probe that looks at every
    second step. *)
Definition ex_conf (f : Z) : pconf := mkPC f 2 0 10.
Definition ex_calls : list call := [(0%Z, 0, fun _ => 1, fun _ => 1); (1%Z, 1, fun _ => 1, fun _ => 1); (2%Z, 2, fun _ => 1, fun _ => 1)].
Definition ex_sel : list call := [(0%Z, 0, fun _ => 1, fun _ => 1); (2%Z, 2, fun _ => 1, fun _ => 1)].
Lemma ex_selects f : selects (scheduled (ex_conf f)) ex_calls ex_sel.
Proof.
  apply sel_take; [split; [exists 0%Z; reflexivity|cbn; lra]|]. apply sel_skip; [intros [[k Hk] _]; cbn in Hk; lia|].
  apply sel_take; [split; [exists 1%Z; reflexivity|cbn; lra]|]. apply sel_nil.
Qed.
Lemma ex_values m D f n t U P : In (n, t, U, P) ex_sel -> field_values m D f U P ((fun _ _ => 1) (n, t, U, P)).
Proof. intros [H|[H|[]]]; injection H as <- <- <- <-; unfold field_values; destruct (f =? 3)%Z; reflexivity. Qed.
Definition spot (x y : R) (d : Z) : R := if (d =? 0)%Z then x else y.
Lemma un_u_crd i : (-1 <= i <= 7)%Z -> crd (un_mesh false false) 0 0 i = IZR i + 1.
Proof. intros Hi. rewrite un_crd by (try lia; exact Hi). reflexivity. Qed.
Lemma un_v_crd i : (-1 <= i <= 8)%Z -> crd (un_mesh false false) 0 1 i = IZR i + 1 / 2.
Proof. intros Hi. rewrite un_crd by (try lia; exact Hi). reflexivity. Qed.

Example point_probe_case : let m := un_mesh false false in let loc := spot (13 / 4) (7 / 2) in
  mesh_setup m (un_dec false false) /\ (0 <= pc_field (ex_conf 0) < m_dim m)%Z /\ pc_nmonitor (ex_conf 0) <> 0%Z /\
  (forall d, (0 <= d < m_dim m)%Z -> crd m 0 d 0 <= loc d <= crd m 0 d (m_n m 0 d - 1)) /\
  selects (scheduled (ex_conf 0)) ex_calls ex_sel.
Proof.
  cbv zeta. rewrite un_dim. split; [apply un_setup|]. split; [cbn; lia|]. split; [discriminate|]. split; [|apply ex_selects].
  intros d Hd. assert (d = 0 \/ d = 1)%Z as [->| ->] by lia; unfold spot; cbn [Z.eqb].
  - change (m_n (un_mesh false false) 0 0 - 1)%Z with 6%Z. rewrite !un_u_crd by lia. lra.
  - change (m_n (un_mesh false false) 0 1 - 1)%Z with 7%Z. rewrite !un_v_crd by lia. lra.
Qed.

(** C31 does not extend to the upper boundary: between the last gridline and
    the boundary a probe of the component that is 1 everywhere writes 1/2. *)
Theorem point_probe_edge_refuted : exists m D c loc calls sel r0 P0 P1 v, mesh_setup m D /\ (0 <= pc_field c < m_dim m)%Z /\ pc_nmonitor c <> 0%Z /\
  selects (scheduled c) calls sel /\
  (forall n t U P, In (n, t, U, P) sel -> field_values m D (pc_field c) U P (fun _ => 1)) /\
  (forall d, (0 <= d < m_dim m)%Z -> 0 < loc d < 8) /\ (forall d, (0 <= d < m_dim m)%Z -> m_min m d = 0 /\ m_max m d = 8) /\
  (0 <= r0 < nranks D)%Z /\ probePointInit m D r0 (pc_field c) loc = Ok P0 /\
  run_probe m D c (probePointMonitorVec m D r0 (pc_field c)) P0 calls = Ok (P1, v) /\ v = [(0, 1 / 2); (2, 1 / 2)].
Proof.
  set (m := un_mesh false false). set (D := un_dec false false). set (loc := spot (15 / 2) (7 / 2)).
  assert (Hs : mesh_setup m D) by apply un_setup. assert (Ed : m_dim m = 2%Z) by apply un_dim.
  assert (Hl : forall d, (0 <= d < m_dim m)%Z -> crd m 0 d 0 <= loc d < crd m 0 d (m_n m 0 d)).
  { intros d Hd. rewrite Ed in Hd. assert (d = 0 \/ d = 1)%Z as [->| ->] by lia; unfold loc, spot; cbn [Z.eqb]; unfold m.
    - change (m_n (un_mesh false false) 0 0)%Z with 7%Z. rewrite !un_u_crd by lia. lra.
    - change (m_n (un_mesh false false) 0 1)%Z with 8%Z. rewrite !un_v_crd by lia. lra. }
  assert (Hf : (0 <= pc_field (ex_conf 0) < m_dim m)%Z) by (rewrite Ed; cbn; lia).
  destruct (point_probe_run m D (ex_conf 0) loc ex_calls ex_sel (fun _ _ => 1) Hs Hf ltac:(discriminate) Hl (ex_selects 0) (fun n t U P => ex_values m D 0 n t U P)) as (r0 & Hr0 & Hrun).
  destruct (Hrun r0 Hr0) as (P0 & P1 & lines & Ei & Er & Hlines). rewrite Z.eqb_refl in Hlines.
  exists m, D, (ex_conf 0), loc, ex_calls, ex_sel, r0, P0, P1, lines. split; [exact Hs|]. split; [exact Hf|]. split; [discriminate|]. split; [apply ex_selects|].
  split; [intros n t U P H; exact (ex_values m D 0 n t U P H)|].
  split; [intros d Hd; rewrite Ed in Hd; unfold loc, spot; destruct (d =? 0)%Z; lra|].
  split; [intros d Hd; apply un_box|]. split; [exact Hr0|]. split; [exact Ei|]. split; [exact Er|].
  assert (Hhalf : interpolant m 0 (probe_ext m 0 (fun _ => 1)) loc (1 / 2)).
  { exists (6, 3, 0)%Z, (fun x _ _ => 8 - x). split; [|split; [|split]].
    - intros d Hd. rewrite Ed in Hd. assert (d = 0 \/ d = 1)%Z as [->| ->] by lia; unfold loc, spot; cbn [Z.eqb]; unfold m.
      + change (pc (6, 3, 0)%Z 0) with 6%Z. change (m_n (un_mesh false false) 0 0)%Z with 7%Z. split; [lia|]. rewrite !un_u_crd by lia. cbn. lra.
      + change (pc (6, 3, 0)%Z 1) with 3%Z. change (m_n (un_mesh false false) 0 1)%Z with 8%Z. split; [lia|]. rewrite !un_v_crd by lia. cbn. lra.
    - repeat split; intros ? ? ? ? ?; ring.
    - intros q Hq. rewrite Ed in Hq. pose proof (Hq 0%Z ltac:(lia)) as H0. pose proof (Hq 1%Z ltac:(lia)) as H1. pose proof (Hq 2%Z ltac:(lia)) as H2.
      destruct q as [[i j] k]. change ((i = 6 \/ i = 7)%Z) in H0. change ((j = 3 \/ j = 4)%Z) in H1. change (k = 0%Z) in H2. unfold at_point. change (pc (i, j, k) 0) with i.
      subst k. destruct H0 as [-> | ->]; unfold m at 1; rewrite un_u_crd by lia; unfold probe_ext; destruct H1 as [-> | ->].
      + change (has_image (m_n m 0) (periodic_dir m) (6, 3, 0)%Z) with true. cbv iota. lra.
      + change (has_image (m_n m 0) (periodic_dir m) (6, 4, 0)%Z) with true. cbv iota. lra.
      + change (has_image (m_n m 0) (periodic_dir m) (7, 3, 0)%Z) with false. cbv iota. lra.
      + change (has_image (m_n m 0) (periodic_dir m) (7, 4, 0)%Z) with false. cbv iota. lra.
    - unfold at_loc, loc, spot. cbn [Z.eqb]. lra. }
  inversion Hlines as [|cl1 tv1 s1 l1 [T1 V1] H1]; subst. inversion H1 as [|cl2 tv2 s2 l2 [T2 V2] H2]; subst. inversion H2; subst.
  destruct tv1 as [t1 v1], tv2 as [t2 v2]. cbn in T1, T2. subst t1 t2. cbn [snd pc_field ex_conf] in V1, V2.
  rewrite (interpolant_unique m D 0 _ loc _ _ Hs Hf V1 Hhalf), (interpolant_unique m D 0 _ loc _ _ Hs Hf V2 Hhalf). reflexivity.
Qed.
Print Assumptions point_probe_edge_refuted.

(** C33. A volume probe whose box can be used monitors exactly the grid points
    of its field in the box enlarged by the tolerance, each on exactly one
    rank; it announces the gridlines in the box, whose product is the set of
    points; and it reads the right entries of the solution vector. *)
Theorem volume_probe_selects : forall m D f atol lo hi, mesh_setup m D -> (0 <= f < m_dim m \/ f = 3)%Z -> box_usable m f atol lo hi ->
  exists P, probeVolumeInit m D f atol lo hi = Ok P /\
    vp_natural P = map (fun r => map (natural (m_n m f)) (box_points m D f atol lo hi r)) (zrange 0 (nranks D)) /\
    NoDup (concat (vp_natural P)) /\
    (forall g, In g (concat (vp_natural P)) <-> exists p, interior (m_n m f) p /\ in_box m f atol lo hi p = true /\ g = natural (m_n m f) p) /\
    Forall2 (Forall2 (fun g g' => exists p, g = natural (m_n m f) p /\ nthZ (field_layout D f) g' = Some p)) (vp_natural P) (vp_petsc P) /\
    vp_grid P = map (fun d => filter (fun x => in_range (lo d - atol) x (hi d + atol)) (map (crd m f d) (zrange 0 (m_n m f d)))) (zrange 0 (m_dim m)) /\
    lenZ (concat (vp_natural P)) = fold_right Z.mul 1%Z (map lenZ (vp_grid P)).
Proof.
  intros m D f atol lo hi Hs Hf Hu. pose proof (setup_facts m D Hs) as F. exists (the_vprobe m D f atol lo hi).
  split; [exact (volume_init_ok m D Hs f Hf atol lo hi Hu)|]. split; [reflexivity|].
  rewrite (natural_concat m D f atol lo hi). split; [|split; [|split; [|split; [reflexivity|]]]].
  - apply NoDup_map_on; [|exact (all_points_NoDup m D Hs f Hf atol lo hi)].
    intros p q Hp Hq E. apply (all_points_In m D Hs f Hf) in Hp. apply (all_points_In m D Hs f Hf) in Hq. eapply natural_inj; [apply Hp|apply Hq|exact E].
  - intros g. rewrite in_map_iff. split.
    + intros (p & <- & Hp). apply (all_points_In m D Hs f Hf) in Hp. exists p. tauto.
    + intros (p & Hp & Hb & ->). exists p. split; [reflexivity|]. apply (all_points_In m D Hs f Hf). tauto.
  - cbn [vp_natural vp_petsc the_vprobe].
    assert (G : forall l, (forall r, In r l -> (0 <= r < nranks D)%Z) ->
      Forall2 (Forall2 (fun g g' => exists p, g = natural (m_n m f) p /\ nthZ (field_layout D f) g' = Some p))
        (map (fun r => map (natural (m_n m f)) (box_points m D f atol lo hi r)) l)
        (map (fun r => map (fun p => ao_apply D (m_n m f) f (natural (m_n m f) p)) (box_points m D f atol lo hi r)) l)).
    { induction l as [|r t IH]; intros Hl; cbn [map]; constructor; [|apply IH; intros; apply Hl; now right].
      pose proof (Hl r (or_introl eq_refl)) as Hr. assert (Q : forall p, In p (box_points m D f atol lo hi r) -> nthZ (field_layout D f) (ao_apply D (m_n m f) f (natural (m_n m f) p)) = Some p)
        by (intros p Hp; exact (petsc_pos m D Hs f Hf atol lo hi p r Hp Hr)).
      induction (box_points m D f atol lo hi r) as [|p ps IHp]; cbn [map]; constructor; [exists p; split; [reflexivity|apply Q; now left]|apply IHp; intros; apply Q; now right]. }
    apply G. intros r Hr. now apply zrange_In in Hr.
  - rewrite lenZ_map. exact (count_points m D Hs f Hf atol lo hi Hu).
Qed.
Print Assumptions volume_probe_selects.

(** C33. A box that is reversed across a gridline ends the program with an
    uncaught exception. *)
Theorem volume_probe_reversed : forall m D f atol lo hi, mesh_setup m D -> (0 <= f < m_dim m \/ f = 3)%Z -> ~ box_usable m f atol lo hi ->
  probeVolumeInit m D f atol lo hi = Err EXC.
Proof. intros m D f atol lo hi Hs Hf Hu. exact (volume_init_exc m D Hs f Hf atol lo hi Hu). Qed.
Print Assumptions volume_probe_reversed.

(** C34. The records of a volume probe: one per scheduled step without
    averaging, otherwise the means of consecutive groups of |n_sum| scheduled
    steps. *)
Theorem volume_probe_records : forall m D c atol lo hi n_sum calls sel w, mesh_setup m D -> (0 <= pc_field c < m_dim m \/ pc_field c = 3)%Z -> pc_nmonitor c <> 0%Z ->
  box_usable m (pc_field c) atol lo hi ->
  selects (scheduled c) calls sel -> (forall n t U P, In (n, t, U, P) sel -> field_values m D (pc_field c) U P (w (n, t, U, P))) ->
  let points := flat_map (box_points m D (pc_field c) atol lo hi) (zrange 0 (nranks D)) in
  let samples := map (fun cl => (call_time cl, map (w cl) points)) sel in
  exists P A records, probeVolumeInit m D (pc_field c) atol lo hi = Ok P /\
    run_probe m D c (volumeMonitorVec m (pc_field c) P n_sum) vacc0 calls = Ok (A, records) /\
    (n_sum = 0%Z -> records = map (fun s => mkRec (fst s) None (snd s)) samples) /\
    (n_sum <> 0%Z -> averaged (Z.abs n_sum) (lenZ points) samples records).
Proof.
  intros m D c atol lo hi n_sum calls sel w Hs Hf Hn Hu Hsel Hw points samples. set (f := pc_field c) in *. pose proof (setup_facts m D Hs) as F.
  exists (the_vprobe m D f atol lo hi). destruct (fold_left (vstep n_sum) samples (vacc0, [])) as [A records] eqn:E. exists A, records.
  split; [exact (volume_init_ok m D Hs f Hf atol lo hi Hu)|]. split; [|split].
  - rewrite (run_probe_sel m D c _ _ calls sel F Hf Hn Hsel). fold f. rewrite (feed_volume m D Hs f Hf atol lo hi n_sum w sel Hw). f_equal. exact E.
  - intros ->. rewrite records_plain in E. injection E as _ <-. reflexivity.
  - intros Hns. replace records with (snd (fold_left (vstep n_sum) samples (vacc0, []))) by now rewrite E. apply records_averaged; auto.
    intros s Hin. unfold samples in Hin. apply in_map_iff in Hin. destruct Hin as (cl & <- & _). cbn [snd]. apply lenZ_map.
Qed.
Print Assumptions volume_probe_records.

(** C35. What one call to monitor does, for every kind of probe: nothing off
    the schedule; on the schedule it passes the vector of the field on, and a
    field that is neither a velocity component nor the pressure is an error. *)
Theorem probe_schedule : forall S O m D c (mv : S -> vec -> R -> res (S * list O)) s n t U P, mesh_setup m D -> (0 <= pc_field c)%Z -> pc_nmonitor c <> 0%Z ->
  (~ scheduled c (n, t, U, P) -> monitor m D c mv s U P n t = Ok (s, [])) /\
  (scheduled c (n, t, U, P) -> (pc_field c < m_dim m \/ pc_field c = 3)%Z ->
     exists v, monitor m D c mv s U P n t = mv s v t /\
       forall w id p, field_values m D (pc_field c) U P w -> nthZ (field_layout D (pc_field c)) id = Some p -> v id = w p) /\
  (scheduled c (n, t, U, P) -> (m_dim m <= pc_field c)%Z -> pc_field c <> 3%Z -> monitor m D c mv s U P n t = Err PETSC_ERR_SUP).
Proof.
  intros S O m D c mv s n t U P Hs Hc Hn. pose proof (setup_facts m D Hs) as F. split; [|split].
  - intros H. now apply monitor_skip.
  - intros H Hf. assert (Hf' : fieldok m (pc_field c)) by (destruct Hf; [left; lia|now right]). exists (field_vec m D (pc_field c) U P). split; [now apply monitor_take|].
    intros w id p Hv. apply (field_vec_value m D (pc_field c) U P w F Hf' Hv).
  - intros H Hd H3. unfold monitor. replace (pc_nmonitor c =? 0)%Z with false by lia.
    pose proof (proj2 (schedb_spec c (n, t, U, P) Hn) H) as Es. cbn [schedb] in Es. rewrite Es.
    destruct (Z.ltb_spec (pc_field c) (m_dim m)); [lia|]. destruct (Z.eqb_spec (pc_field c) 3); [contradiction|reflexivity].
Qed.
Print Assumptions probe_schedule.
Theorem probe_never_refuted : forall S O m D c (mv : S -> vec -> R -> res (S * list O)) s n t U P, pc_nmonitor c = 0%Z -> monitor m D c mv s U P n t = UB.
Proof. intros S O m D c mv s n t U P E. unfold monitor. rewrite E. reflexivity. Qed.
Print Assumptions probe_never_refuted.

(** A box of 2 x 3 points of the first component, averaged over two samples. *)
Definition ex_lo (d : Z) : R := if (d =? 0)%Z then 2 else 3.
Definition ex_hi (d : Z) : R := if (d =? 0)%Z then 3 else 6.
Example volume_probe_case : let m := un_mesh false false in let D := un_dec false false in
  mesh_setup m D /\ box_usable m 0 (1 / 100) ex_lo ex_hi /\ in_box m 0 (1 / 100) ex_lo ex_hi (1, 3, 0)%Z = true /\ in_box m 0 (1 / 100) ex_lo ex_hi (3, 3, 0)%Z = false /\
  selects (scheduled (ex_conf 0)) ex_calls ex_sel.
Proof.
  cbv zeta. split; [apply un_setup|]. split; [|split; [|split; [|apply ex_selects]]].
  - intros d i Hd Hi. rewrite un_dim in Hd. assert (d = 0 \/ d = 1)%Z as [->| ->] by lia; unfold ex_lo, ex_hi; cbn [Z.eqb]; lra.
  - unfold in_box. rewrite un_dim. change (zrange 0 2) with [0; 1]%Z. cbn [forallb]. change (pc (1, 3, 0)%Z 0) with 1%Z. change (pc (1, 3, 0)%Z 1) with 3%Z.
    rewrite un_u_crd, un_v_crd by lia. unfold in_range. rewrite !andb_true_iff, !Rleb_spec. unfold ex_lo, ex_hi. cbn [Z.eqb]. lra.
  - unfold in_box. rewrite un_dim. change (zrange 0 2) with [0; 1]%Z. cbn [forallb]. change (pc (3, 3, 0)%Z 0) with 3%Z.
    rewrite un_u_crd by lia. unfold in_range at 1. destruct (Rleb (IZR 3 + 1) (ex_hi 0 + 1 / 100)) eqn:E; [apply Rleb_spec in E; unfold ex_hi in E; cbn in E; lra|].
    rewrite andb_false_r. reflexivity.
Qed.
