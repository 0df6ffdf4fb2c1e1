(** Two runs of an immersed-boundary solver on two process grids. *)
From Coq Require Import Lia ZifyBool String List.
Import ListNotations.
From Verif Require Import Prelude ZSum RSum TypesModel GridModel GridSpec GridProof MeshProof
  IndexModel IndexSpec IndexProof BoundaryModel BoundarySpec BoundaryProof OperatorModel OperatorSpec OperatorProof BStateProof LapProof DivProof GradProof
  AdjProof SymProof MatModel BnModel NSModel NSSpec NSProof NSPin BnSpec BnProof LinAlg UniqueProof ConvSpec EnergySpec EnergyProof EnergyRun
  BodyModel BodySpec BodyProof DeltaModel DeltaSpec DeltaSum IbpmModel IbpmSpec IbpmProof IbpmStep IbpmDec IbpmMove RestartProof DecSpec DecProof IndepSpec IndepProof IndepRun IbGridSpec.
Local Open Scope R_scope.

(** * Two numberings of a system whose kernel does not matter *)
Lemma still_rel {K L} n (S : K -> Prop) i1 i2 (T : L -> Prop) j1 l1 j2 l2 (A1 A2 G1 G2 : mat) x1 x2 b1 b2 :
  numbering n T j1 l1 -> numbering n T j2 l2 -> mrel T j1 j2 T j1 j2 A1 A2 -> mrel S i1 i2 T j1 j2 G1 G2 -> vrel T j1 j2 b1 b2 ->
  solves n A1 x1 b1 -> solves n A2 x2 b2 ->
  (forall y, solves n A2 y b2 -> forall k, S k -> mvec n G2 y (i2 k) = mvec n G2 x2 (i2 k)) ->
  vrel S i1 i2 (mvec n G1 x1) (mvec n G2 x2).
Proof.
  intros N1 N2 HA HG Hb S1 S2 Hk k Sk. pose proof (solves_transport n T j1 l1 j2 l2 A1 A2 x1 b1 b2 N1 N2 HA Hb S1) as S1'.
  rewrite <- (Hk _ S1' k Sk). apply (mr_mvec n S i1 i2 T j1 l1 j2 l2); auto. intros l Hl. destruct (proj1 N2 l Hl) as [_ ->]. reflexivity.
Qed.

(** * The points of the bodies *)
Section Points.
Context (m : mesh) (D1 D2 : dec) (bs1 bs2 : list (body * list (list R))).
Hypotheses (Hb1 : bodies_ok m D1 bs1) (Hb2 : bodies_ok m D2 bs2) (Hsame : same_points bs1 bs2).
Definition SF (u : Z * Z * Z) : Prop := (exists X, located bs1 (fst (fst u)) (snd (fst u)) X) /\ (0 <= snd u < m_dim m)%Z.
Definition jf (D : dec) (bs : list (body * list (list R))) (u : Z * Z * Z) : Z :=
  ok_or 0%Z (bp_getPackedGlobalIndex (nranks D) (m_dim m) (map fst bs) (fst (fst u)) (snd (fst u)) (snd u)).
Definition lf (D : dec) (bs : list (body * list (list R))) (i : Z) : Z * Z * Z :=
  match nthZ (body_layout (nranks D) (m_dim m) (map fst bs)) i with Some u => u | None => (0, 0, 0)%Z end.
Lemma located_same b i X : located bs1 b i X <-> located bs2 b i X.
Proof.
  assert (Q : forall l l' : list (body * list (list R)), map snd l = map snd l' -> located l b i X -> located l' b i X).
  { intros l l' E (bc & Eb & EX). assert (Em : nthZ (map snd l') b = Some (snd bc)) by (rewrite <- E, nthZ_map, Eb; reflexivity).
    rewrite nthZ_map in Em. destruct (nthZ l' b) as [bc'|] eqn:E'; [|discriminate]. injection Em as Em. exists bc'. split; [exact E'|]. now rewrite Em. }
  split; apply Q; [exact Hsame|symmetry; exact Hsame].
Qed.
Lemma jf_row D bs b i c X : bodies_ok m D bs -> located bs b i X -> (0 <= c < m_dim m)%Z ->
  nthZ (body_layout (nranks D) (m_dim m) (map fst bs)) (jf D bs (b, i, c)) = Some (b, i, c).
Proof.
  intros [Hok Hf] (bc & Eb & EX) Hc. rewrite Forall_forall in Hf. destruct (Hf bc (nthZ_In _ _ _ Eb)) as [L _]. pose proof (nthZ_Some_range _ _ _ EX).
  destruct (packed_body (nranks D) (m_dim m) (map fst bs) Hok b (fst bc) i c) as (r & idx & _ & _ & _ & E & _ & N); auto; [rewrite nthZ_map, Eb; reflexivity|lia|].
  unfold jf. cbn [fst snd]. rewrite E. exact N.
Qed.
Lemma numF_any D bs : bodies_ok m D bs -> numbering (n_forces m bs) (fun u => (exists X, located bs (fst (fst u)) (snd (fst u)) X) /\ (0 <= snd u < m_dim m)%Z) (jf D bs) (lf D bs).
Proof.
  intros Hbo. assert (Ln : lenZ (body_layout (nranks D) (m_dim m) (map fst bs)) = n_forces m bs) by (apply body_layout_len, Hbo). split.
  - intros [[b i] c] ((X & HX) & Hc). cbn [fst snd] in *. pose proof (jf_row D bs b i c X Hbo HX Hc) as N. pose proof (nthZ_Some_range _ _ _ N). split; [lia|]. unfold lf. now rewrite N.
  - intros r Hr. rewrite <- Ln in Hr. destruct (nthZ_in_range _ _ Hr) as ([[b i] c] & E). unfold lf. rewrite E. cbn [fst snd].
    destruct (bodies_pos m D bs Hbo r b i c E) as (X & HX).
    assert (Hc : (0 <= c < m_dim m)%Z). { pose proof (proj1 (body_layout_In _ _ _ (proj1 Hbo) b i c) (nthZ_In _ _ _ E)) as (bo & _ & _ & Q). exact Q. }
    split; [eauto|]. pose proof (jf_row D bs b i c X Hbo HX Hc) as N.
    destruct (Z.eq_dec (jf D bs (b, i, c)) r) as [|Ne]; auto. exfalso. exact (Ne (nthZ_NoDup_inj _ _ _ _ (body_layout_NoDup _ _ _ (proj1 Hbo)) N E)).
Qed.
Lemma numF1 : numbering (n_forces m bs1) SF (jf D1 bs1) (lf D1 bs1).
Proof. exact (numF_any D1 bs1 Hb1). Qed.
Lemma forces_same : n_forces m bs1 = n_forces m bs2.
Proof.
  unfold n_forces. f_equal. destruct Hb1 as [_ F1], Hb2 as [_ F2]. clear - F1 F2 Hsame. unfold same_points in Hsame. revert bs2 Hsame F1 F2.
  assert (Q : forall (bs : list (body * list (list R))), Forall (fun bc => lenZ (snd bc) = b_nPts (fst bc) /\ Forall (fun row => lenZ row = m_dim m) (snd bc)) bs ->
     bp_nPts (map fst bs) = fold_left (fun a c => (a + lenZ c)%Z) (map snd bs) 0%Z).
  { intros bs. unfold bp_nPts. generalize 0%Z. induction bs as [|bc t IH]; intros z H; [reflexivity|]. inversion H as [|? ? [E _] Ht]; subst. cbn [map fold_left]. rewrite <- E. now apply IH. }
  intros bs' Hs F1 F2. rewrite (Q _ F1), (Q _ F2). now rewrite Hs.
Qed.
Lemma numF2 : numbering (n_forces m bs1) SF (jf D2 bs2) (lf D2 bs2).
Proof.
  rewrite forces_same. destruct (numF_any D2 bs2 Hb2) as [A B]. split.
  - intros u ((X & HX) & Hc). apply A. split; auto. exists X. now apply located_same.
  - intros c Hc. destruct (B c Hc) as (((X & HX) & Hu) & E). split; auto. split; auto. exists X. now apply located_same.
Qed.
Definition ff := vrel SF (jf D1 bs1) (jf D2 bs2).
Lemma ff_same f1 f2 : same_forces m D1 D2 bs1 bs2 f1 f2 <-> ff f1 f2.
Proof.
  split.
  - intros H [[b i] c] ((X & HX) & Hc). cbn [fst snd] in *. refine (H _ _ _ (jf_row D1 bs1 b i c X Hb1 HX Hc) (jf_row D2 bs2 b i c X Hb2 _ Hc)). now apply located_same.
  - intros H r1 r2 u E1 E2. pose proof (nthZ_Some_range _ _ _ E1) as R1. pose proof (nthZ_Some_range _ _ _ E2) as R2.
    rewrite body_layout_len in R1 by apply Hb1. rewrite body_layout_len in R2 by apply Hb2.
    fold (n_forces m bs1) in R1. fold (n_forces m bs2) in R2. rewrite <- forces_same in R2.
    destruct (proj2 numF1 _ R1) as [S1 K1]. destruct (proj2 numF2 _ R2) as [S2 K2]. unfold lf in S1, K1, K2. rewrite E1 in S1, K1. rewrite E2 in K2. rewrite <- K1, <- K2. exact (H u S1).
Qed.
End Points.
