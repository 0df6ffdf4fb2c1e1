From Coq Require Import ZifyBool String.
From Verif Require Import Prelude ZSum RSum TypesModel GridModel GridSpec GridProof MeshProof
  IndexModel IndexSpec IndexProof BoundaryModel BoundarySpec BoundaryProof OperatorModel OperatorSpec OperatorProof BStateProof LapProof AdjProof
  MatModel BnModel NSModel NSSpec NSProof NSTotal NameModel NameProof DriverModel DriverSpec DriverProof DriveProof RestartProof
  BodyModel BodySpec BodyProof DeltaModel DeltaSpec IbpmModel IbpmSpec IbOutModel IbOutDrive.
Local Open Scope R_scope.

(** * The unknowns of a single body are stored in the order of its points *)
Lemma one_block {A} (g : Z -> list A) l n : (0 <= n)%Z -> (forall r, (0 <= r < n)%Z -> (0 <= l r)%Z) ->
  flat_map (fun r => flat_map g (zrange (isum l 0 r) (isum l 0 r + l r))) (zrange 0 n) = flat_map g (zrange 0 (isum l 0 n)).
Proof.
  intros Hn. revert n Hn. apply (natlike_ind (fun n => (forall r, (0 <= r < n)%Z -> (0 <= l r)%Z) ->
    flat_map (fun r => flat_map g (zrange (isum l 0 r) (isum l 0 r + l r))) (zrange 0 n) = flat_map g (zrange 0 (isum l 0 n)))).
  - intros _. rewrite isum_nil by lia. rewrite zrange_nil by lia. reflexivity.
  - intros n Hn IH Hl. unfold Z.succ. rewrite zrange_snoc by lia. replace (n + 1 - 1)%Z with n by lia. rewrite flat_map_app. cbn [flat_map]. rewrite app_nil_r.
    rewrite IH by (intros; apply Hl; lia). rewrite isum_snoc by lia. pose proof (Hl n ltac:(lia)). assert (0 <= isum l 0 n)%Z by (apply isum_nonneg; intros; apply Hl; lia).
    rewrite <- flat_map_app, <- zrange_app by lia. reflexivity.
Qed.
Lemma one_body_layout size dim bo : pack_ok size dim [bo] ->
  body_layout size dim [bo] = flat_map (fun i => map (fun c => (0, i, c)%Z) (zrange 0 dim)) (zrange 0 (b_nPts bo)).
Proof.
  intros (Hs & Hd & Hf). apply Forall_inv in Hf. destruct Hf as [Hl Hn]. rewrite <- Hn. rewrite <- one_block by (auto; lia).
  unfold body_layout. change (lenZ [bo]) with 1%Z. rewrite !flat_map_concat_map. f_equal. apply map_ext. intros r.
  rewrite (zrange_cons 0 1), (zrange_nil (0 + 1) 1) by lia. cbn [flat_map]. rewrite app_nil_r. change (nthZ [bo] 0) with (Some bo). reflexivity.
Qed.

(** * A run, and its first part *)
Section Left.
Context {Ops St : Type}.
Variable (m : mesh).
Variables (ite : St -> Z) (init : Z -> res (Ops * St)) (wsol : Ops -> string -> St -> list fsop) (wres : Ops -> string -> St -> disk -> list fsop)
  (rres : Ops -> string -> disk -> St -> res St) (line : Ops -> St -> res (list R)) (step : Ops -> St -> res St).
Hypothesis (Hinit : forall n ops s0, init n = Ok (ops, s0) -> ite s0 = n /\ forall n', exists s0', init n' = Ok (ops, s0')).
Hypothesis (Hite : forall ops s s', step ops s = Ok s' -> ite s' = (ite s + 1)%Z).
Hypothesis (Hrite : forall ops p d s s', rres ops p d s = Ok s' -> ite s' = ite s).
Hypothesis (Hws : forall ops p s o, In o (wsol ops p s) -> op_path o = p).
Hypothesis (Hwr : forall ops p s d o, In o (wres ops p s d) -> op_path o = p).
Variables (Inv : Ops -> St -> Prop) (holds : Ops -> St -> file -> Prop).
Hypothesis (Hinv0 : forall n ops s0, init n = Ok (ops, s0) -> Inv ops s0).
Hypothesis (HinvR : forall n ops s0 p d s1, init n = Ok (ops, s0) -> rres ops p d s0 = Ok s1 -> Inv ops s1).
Hypothesis (HinvS : forall ops s s', Inv ops s -> step ops s = Ok s' -> Inv ops s').
Hypothesis (Hfile : forall ops sk path d', inited init ops -> Inv ops sk -> (d' path = None \/ exists d0, d' path = run_ops (wsol ops path sk) d0 path) ->
  exists Fl, run_ops (wres ops path sk d') d' path = Some Fl /\ holds ops sk Fl).
Local Notation gm := (g_main m ite init wsol wres rres line step).

Lemma g_left confA conf1 monA mon1 fuelA fuel1 d sA dA lsA s1' d1 ls1 k j :
  c_out confA = c_out conf1 -> c_nstart confA = c_nstart conf1 -> (0 <= c_nstart conf1)%Z ->
  (forall s o n, In o (mon1 s) -> op_path o <> solution_path (c_out conf1) n) ->
  c_nt conf1 = Z.of_nat k -> (1 <= k)%nat -> c_nt confA = Z.of_nat (k + j) ->
  gm fuelA confA monA d = Ok (Some (sA, dA, lsA)) -> gm fuel1 conf1 mon1 d = Ok (Some (s1', d1, ls1)) ->
  let n2 := (c_nstart conf1 + Z.of_nat k)%Z in
  (c_nrestart conf1 | n2)%Z -> (c_nsave conf1 | n2)%Z \/ d (solution_path (c_out conf1) n2) = None ->
  exists ops s0 s1 wA Fl, init (c_nstart confA) = Ok (ops, s0) /\
    io_initial_with ite (wsol ops) (rres ops) confA s0 (run_ops (f_init_ops m confA) d) = Ok (s1, wA) /\
    run_steps (step ops) k s1 = Ok s1' /\ run_steps (step ops) j s1' = Ok sA /\ Inv ops s1' /\ ite s1' = n2 /\
    d1 (solution_path (c_out conf1) n2) = Some Fl /\ holds ops s1' Fl /\
    exists lsR, lsA = ls1 ++ lsR /\ lenZ lsR = Z.of_nat j /\
      forall i l, nthZ lsR i = Some l -> exists u, run_steps (step ops) (Z.to_nat (i + 1)) s1' = Ok u /\ line ops u = Ok l.
Proof.
  intros HoA HnA H0 Hm Hk Hk1 HkA HA H1 n2 Hr Hs.
  destruct (g_main_inv _ _ _ _ _ _ _ _ _ _ _ _ _ _ _ H1) as (ops & s0 & s1 & w & E1 & E2 & E3). destruct (g_main_inv _ _ _ _ _ _ _ _ _ _ _ _ _ _ _ HA) as (opsA & s0A & s1A & wA & A1 & A2 & A3).
  pose proof A1 as A1'. rewrite HnA, E1 in A1. injection A1 as <- <-.
  assert (X : s1A = s1).
  { clear A3 A1'. unfold io_initial_with, f_init_ops, init_ops in *. rewrite HoA, HnA in A2. destruct (_ =? 0)%Z; [injection A2 as <- <-; injection E2 as <- <-; reflexivity|].
    rewrite E2 in A2. injection A2 as <- <-. reflexivity. }
  subst s1A. destruct (Hinit _ _ _ E1) as [Hi0 Hre]. pose proof (io_inv ite wsol rres Hrite _ _ _ _ _ _ E2) as Hi1.
  assert (Hin : inited init ops) by (eexists; eexists; exact E1).
  assert (I1 : Inv ops s1).
  { unfold io_initial_with in E2. destruct (_ =? 0)%Z; [injection E2 as <- <-; eapply Hinv0; eauto|]. apply bind_ok_inv in E2. destruct E2 as (s' & Er & E2).
    injection E2 as <- <-. eapply HinvR; eauto. }
  assert (L1 : nleft ite conf1 s1 = k) by (unfold nleft; lia). assert (LA : nleft ite confA s1 = (k + j)%nat) by (unfold nleft; lia).
  destruct (f_drive_inv ite (wsol ops) (wres ops) (line ops) (step ops) (Hite ops) conf1 mon1 _ _ _ _ _ _ E3) as (R1 & Len1 & L1' & _). rewrite L1 in R1, Len1.
  destruct (f_drive_inv ite (wsol ops) (wres ops) (line ops) (step ops) (Hite ops) confA monA _ _ _ _ _ _ A3) as (RA & LenA & LA' & _). rewrite LA in RA, LenA.
  rewrite run_add, R1 in RA. cbn [bind] in RA.
  pose proof (run_ite ite (step ops) (Hite ops) _ _ _ R1) as Hk'. pose proof (run_inv step Inv HinvS _ _ _ _ I1 R1) as Ik.
  assert (Hn : n2 = ite s1') by (unfold n2; lia). rewrite Hn in *. clear n2 Hn.
  assert (P1 : (0 <= ite s1)%Z) by lia. assert (P2 : nleft ite conf1 s1 <> 0%nat) by lia.
  destruct (f_drive_last ite (wsol ops) (wres ops) (line ops) (step ops) (Hite ops) (Hws ops) (Hwr ops) conf1 mon1 _ _ _ _ _ _ Hm P1 E3 P2) as (d' & o & Ew & Ed & Ep).
  assert (Ep' : d' (solution_path (c_out conf1) (ite s1')) = d (solution_path (c_out conf1) (ite s1'))).
  { rewrite Ep. rewrite run_other; [apply f_init_other; lia|]. intros x Hx Hp. unfold io_initial_with in E2.
    destruct (Z.eqb_spec (ite s0) 0) as [Z0|Z0]; [|apply bind_ok_inv in E2; destruct E2 as (s' & _ & E2); injection E2 as <- <-; destruct Hx].
    injection E2 as <- <-. rewrite (Hws _ _ _ _ Hx) in Hp. apply solution_path_inj in Hp; lia. }
  destruct (write_with_file ite (wsol ops) (wres ops) conf1 mon1 s1' d' o Hm Ew Hr) as (d'' & Hd'' & Eo). { destruct Hs as [Hs|Hs]; [left; exact Hs|right; rewrite Ep'; exact Hs]. }
  destruct (Hfile ops s1' (solution_path (c_out conf1) (ite s1')) d'' Hin Ik Hd'') as (Fl & EF & HF). rewrite EF, <- Ed in Eo.
  exists ops, s0, s1, wA, Fl. repeat (split; [assumption|]). split; [reflexivity|]. split; [exact Eo|]. split; [exact HF|].
  exists (skipn k lsA). assert (Hsk : forall i, (0 <= i)%Z -> nthZ (skipn k lsA) i = nthZ lsA (Z.of_nat k + i)).
  { intros i Hi. pose proof (firstn_skipn k lsA) as Q. rewrite <- Q at 2. assert (Lf : lenZ (firstn k lsA) = Z.of_nat k) by (unfold lenZ in *; rewrite firstn_length; lia).
    rewrite nthZ_app_r by lia. f_equal. lia. }
  assert (Lsk : lenZ (skipn k lsA) = Z.of_nat j) by (unfold lenZ in *; rewrite skipn_length; lia).
  split; [|split; [exact Lsk|]].
  - apply nthZ_ext; [rewrite lenZ_app; lia|]. intros i C.
    destruct (Z.ltb_spec i (Z.of_nat k)) as [Hik|Hik].
    + rewrite nthZ_app_l by lia. destruct (nthZ_in_range lsA i ltac:(lia)) as [l El]. rewrite El. destruct (LA' _ _ El) as (u & Eu & Elu).
      destruct (nthZ_in_range ls1 i ltac:(lia)) as [l1 El1]. rewrite El1. destruct (L1' _ _ El1) as (u1 & Eu1 & Elu1). rewrite Eu in Eu1. injection Eu1 as <-. congruence.
    + rewrite nthZ_app_r by lia. rewrite Hsk by lia. f_equal. lia.
  - intros i l Hl. pose proof (nthZ_Some_range _ _ _ Hl) as Hr'. rewrite Hsk in Hl by lia. destruct (LA' _ _ Hl) as (u & Eu & Elu). exists u. split; [|exact Elu].
    replace (Z.to_nat (Z.of_nat k + i + 1)) with (k + Z.to_nat (i + 1))%nat in Eu by lia. rewrite run_add, R1 in Eu. exact Eu.
Qed.

(** A resumed program. *)
Lemma g_resumed conf mon fuel d s2 d2 ls : (0 < c_nstart conf)%Z -> (0 <= c_nt conf)%Z -> gm fuel conf mon d = Ok (Some (s2, d2, ls)) ->
  exists ops s0 s1, init (c_nstart conf) = Ok (ops, s0) /\ ite s0 = c_nstart conf /\
    rres ops (solution_path (c_out conf) (c_nstart conf)) (run_ops (f_init_ops m conf) d) s0 = Ok s1 /\
    run_ops (f_init_ops m conf) d (solution_path (c_out conf) (c_nstart conf)) = d (solution_path (c_out conf) (c_nstart conf)) /\
    io_initial_with ite (wsol ops) (rres ops) conf s0 (run_ops (f_init_ops m conf) d) = Ok (s1, []) /\
    run_steps (step ops) (Z.to_nat (c_nt conf)) s1 = Ok s2 /\ lenZ ls = c_nt conf /\
    forall i l, nthZ ls i = Some l -> exists u, run_steps (step ops) (Z.to_nat (i + 1)) s1 = Ok u /\ line ops u = Ok l.
Proof.
  intros Hn Ht H. destruct (g_lines m ite init wsol wres rres line step Hinit Hite Hrite _ _ _ _ _ _ _ H) as (ops & s0 & s1 & w & E1 & E2 & E3 & E4 & E5).
  destruct (Hinit _ _ _ E1) as [Hi0 _]. exists ops, s0, s1. split; [exact E1|]. split; [exact Hi0|]. pose proof E2 as E2'. unfold io_initial_with in E2. rewrite Hi0 in E2. destruct (Z.eqb_spec (c_nstart conf) 0) as [C|_]; [lia|].
  apply bind_ok_inv in E2. destruct E2 as (s' & Er & E2). injection E2 as <- <-. split; [exact Er|]. split; [apply f_init_other; lia|]. split; [exact E2'|]. split; [exact E3|]. split; [lia|exact E5].
Qed.
End Left.

(** With at most one explicit term of each kind, a step does not read the terms
    of the step before. *)
Definition blank (s : nsstate) : nsstate :=
  mkNS (s_t s) (s_ite s) (s_U s) (s_p s) (s_dP s) (map (fun _ => (fun _ => 0) : vec) (s_conv s)) (map (fun _ => (fun _ => 0) : vec) (s_diff s)) (s_bc s).
Lemma rhs_blank n m D P O conv s : (lenZ (s_conv s) <= 1)%Z -> (lenZ (s_diff s) <= 1)%Z ->
  rhs_velocity n m D P O conv (blank s) = rhs_velocity n m D P O conv s.
Proof.
  intros Lc Ld. destruct s as [t ite U p dP cs ds B]. cbn [s_conv s_diff] in Lc, Ld. unfold rhs_velocity, blank. cbn [s_t s_ite s_U s_p s_dP s_conv s_diff s_bc].
  destruct cs as [|x [|x' cs]]; [| |rewrite !lenZ_cons in Lc; pose proof (lenZ_nonneg cs); lia];
  (destruct ds as [|y [|y' ds]]; [| |rewrite !lenZ_cons in Ld; pose proof (lenZ_nonneg ds); lia]); reflexivity.
Qed.
