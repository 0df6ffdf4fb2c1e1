(** Proofs about the prescribed motion of the oscillating cylinder. *)
From Coq Require Import String ZifyBool.
From Verif Require Import Prelude ZSum RSum TypesModel GridModel GridSpec GridProof MeshProof IndexModel IndexSpec
  BoundaryModel BoundarySpec BoundaryProof OperatorModel OperatorSpec OperatorProof
  MatModel NSModel NSSpec BodyModel BodySpec BodyProof DeltaModel DeltaSpec IbpmModel IbpmSpec IbpmMove.
Local Open Scope R_scope.

Lemma foldM_cover {S A} (f : S -> A -> res S) (J : S -> Prop) (Q : A -> S -> Prop) l : forall s,
  J s -> (forall s a, In a l -> J s -> exists s', f s a = Ok s' /\ J s' /\ Q a s' /\ forall a', Q a' s -> Q a' s') ->
  exists s', foldM f l s = Ok s' /\ J s' /\ (forall a, In a l -> Q a s') /\ forall a', Q a' s -> Q a' s'.
Proof.
  induction l as [|a t IH]; intros s Hj H; [exists s; split; [reflexivity|]; split; [exact Hj|]; split; [intros a []|auto]|].
  destruct (H s a ltac:(now left) Hj) as (s1 & E1 & J1 & Q1 & K1). destruct (IH s1 J1) as (s2 & E2 & J2 & Q2 & K2); [intros; apply H; auto; now right|].
  exists s2. cbn [foldM]. rewrite E1. cbn [bind]. split; [exact E2|]. split; [exact J2|]. split; [|auto]. intros a' [<-|Ha']; auto.
Qed.
Lemma list_eq_nthZ {A} (l l' : list A) : lenZ l = lenZ l' -> (forall i, (0 <= i < lenZ l)%Z -> nthZ l i = nthZ l' i) -> l = l'.
Proof.
  revert l'. induction l as [|x t IH]; intros [|y t'] L H; [reflexivity|unfold lenZ in L; cbn in L; lia|unfold lenZ in L; cbn in L; lia|].
  rewrite !lenZ_cons in L. pose proof (lenZ_nonneg t). rewrite lenZ_cons in H. pose proof (H 0%Z ltac:(lia)) as Hz. rewrite !nthZ_cons_0 in Hz. injection Hz as ->. f_equal.
  apply IH; [lia|]. intros i Hi. specialize (H (i + 1)%Z ltac:(lia)). rewrite !nthZ_cons_pos in H by lia. now replace (i + 1 - 1)%Z with i in H by lia.
Qed.

Lemma two_row (row : list R) : lenZ row = 2%Z -> exists x y, row = [x; y].
Proof. unfold lenZ. destruct row as [|x [|y [|]]]; cbn; intros; try lia. eauto. Qed.

Lemma osc_move_at f Am coords0 t l : Forall (fun row : list R => lenZ row = 2%Z) coords0 -> same_shape l [coords0] ->
  osc_move f Am coords0 t l = Ok (osc_pos f Am coords0 t).
Proof.
  intros H2 Hs. inversion Hs as [|c c0 l1 l2 Hc Ht]; subst. inversion Ht; subst. unfold osc_move.
  change (rd [c] 0) with (Ok c). cbn [bind]. set (g := fun row => [xc row 0 - Am * sin (2 * PI * f * t); xc row 1]).
  assert (Lc : lenZ c = lenZ coords0) by (unfold lenZ; f_equal; eapply Forall2_len; eauto).
  assert (Rc : Forall (fun row : list R => lenZ row = 2%Z) c) by (eapply rows_shape; eauto).
  destruct (foldM_cover (fun c k => do row0 <- rd coords0 k; do x0 <- rd row0 0; do y0 <- rd row0 1;
      do row <- rd c k; do row1 <- wr row 0 (x0 + - Am * sin (2 * PI * f * t)); do row2 <- wr row1 1 (y0 + 0); wr c k row2)
      (fun c => lenZ c = lenZ coords0 /\ Forall (fun row : list R => lenZ row = 2%Z) c)
      (fun k c => forall row0, nthZ coords0 k = Some row0 -> nthZ c k = Some (g row0)) (zrange 0 (lenZ coords0)) c (conj Lc Rc)) as (c' & E & (L' & R') & Q' & _).
  - intros s k Hk [Ls Rs]. apply zrange_In in Hk. destruct (nthZ_in_range coords0 k Hk) as [row0 E0]. destruct (nthZ_in_range s k ltac:(lia)) as [row E1].
    rewrite Forall_forall in H2, Rs. destruct (two_row row0 (H2 _ (nthZ_In _ _ _ E0))) as (x0 & y0 & ->). destruct (two_row row (Rs _ (nthZ_In _ _ _ E1))) as (x & y & ->).
    unfold rd at 1. rewrite E0. cbn [bind]. change (rd [x0; y0] 0) with (Ok x0). change (rd [x0; y0] 1) with (Ok y0). cbn [bind]. unfold rd at 1. rewrite E1. cbn [bind].
    change (wr [x; y] 0 (x0 + - Am * sin (2 * PI * f * t))) with (Ok [x0 + - Am * sin (2 * PI * f * t); y]). cbn [bind].
    change (wr [x0 + - Am * sin (2 * PI * f * t); y] 1 (y0 + 0)) with (Ok [x0 + - Am * sin (2 * PI * f * t); y0 + 0]). cbn [bind].
    destruct (MeshProof.wr_ok s k [x0 + - Am * sin (2 * PI * f * t); y0 + 0] ltac:(lia)) as (s' & Ew & Lw & Nw & Ow). exists s'. split; [exact Ew|].
    assert (V : [x0 + - Am * sin (2 * PI * f * t); y0 + 0] = g [x0; y0]).
    { unfold g. change (xc [x0; y0] 0) with x0. change (xc [x0; y0] 1) with y0. f_equal; [ring|f_equal; ring]. }
    rewrite V in Nw. split; [split; [lia|]|split].
    + apply Forall_forall. intros row Hr. destruct (In_nthZ _ _ Hr) as (j & Hj & Ej). destruct (Z.eq_dec j k) as [->|Hne].
      * rewrite Nw in Ej. injection Ej as <-. reflexivity.
      * rewrite (Ow j Hne) in Ej. apply Rs. eapply nthZ_In; eauto.
    + intros row0 Er. injection Er as <-. exact Nw.
    + intros k' HQ row0 Er. destruct (Z.eq_dec k' k) as [->|Hne]; [rewrite E0 in Er; injection Er as <-; exact Nw|]. rewrite (Ow k' Hne). auto.
  - rewrite E. cbn [bind]. change (wr [c] 0 c') with (Ok [c']). f_equal. unfold osc_pos. f_equal. fold g.
    apply list_eq_nthZ; [now rewrite lenZ_map|]. intros i Hi. rewrite L' in Hi. destruct (nthZ_in_range coords0 i Hi) as [row0 E0].
    rewrite (Q' i) with (row0 := row0) by (auto; now apply zrange_In). now rewrite nthZ_map, E0.
Qed.

Lemma osc_vel_at size f Um b t ub : pack_ok size 2 [b] ->
  exists ub', osc_vel size f Um [b] t ub = Ok ub' /\
    forall row b' i c, nthZ (body_layout size 2 [b]) row = Some (b', i, c) -> ub' row = osc_velocity f Um t b' i c.
Proof.
  intros Hok. unfold osc_vel. change (rd [b] 0) with (Ok b). cbn [bind].
  replace (forallb (fun r => (bp_nLclAllProcs 2 [b] r =? sb_nLclAllProcs 2 b r)%Z) (zrange 0 size)) with true.
  2: { symmetry. apply forallb_forall. intros r _. unfold bp_nLclAllProcs. cbn [fold_left]. lia. }
  destruct (packed_body_bijection size 2 [b] Hok) as (A & _ & _).
  rewrite foldM_flat_map.
  destruct (foldM_cover (fun ub k => do i0 <- bp_getPackedGlobalIndex size 2 [b] 0 k 0; do i1 <- bp_getPackedGlobalIndex size 2 [b] 0 k 1;
       Ok (fun i => if (i =? i1)%Z then 0 else if (i =? i0)%Z then - Um * cos (2 * PI * f * t) else ub i))
     (fun _ : vec => True) (fun k ub => forall row b' c, nthZ (body_layout size 2 [b]) row = Some (b', k, c) -> ub row = osc_velocity f Um t b' k c)
     (flat_map (fun r => zrange (b_bg b r) (b_ed b r)) (zrange 0 size)) ub I) as (ub' & E & _ & Q & _).
  - intros u k Hk _. apply in_flat_map in Hk. destruct Hk as (r & Hr & Hk). apply zrange_In in Hr, Hk.
    assert (Sp : spread size b) by (destruct Hok as (_ & _ & Hf); now inversion Hf).
    assert (Hkr : (0 <= k < b_nPts b)%Z).
    { destruct Sp as [S1 S2]. unfold b_ed, b_bg in Hk. pose proof (isum_nonneg (b_l b) 0 r ltac:(intros; apply S1; lia)). pose proof (isum_le (b_l b) 0 (r + 1) size ltac:(intros; apply S1; lia) ltac:(lia)) as E1. rewrite isum_snoc in E1 by lia. lia. }
    destruct (A 0%Z (b_nPts b) k 0%Z ltac:(exists b; auto) Hkr ltac:(lia)) as (i0 & E0 & _ & N0). destruct (A 0%Z (b_nPts b) k 1%Z ltac:(exists b; auto) Hkr ltac:(lia)) as (i1 & E1 & _ & N1).
    rewrite E0. cbn [bind]. rewrite E1. cbn [bind]. eexists. split; [reflexivity|]. split; [exact I|].
    assert (U : forall row b' k' c, nthZ (body_layout size 2 [b]) row = Some (b', k', c) -> k' = k \/ u row = osc_velocity f Um t b' k' c ->
       (if (row =? i1)%Z then 0 else if (row =? i0)%Z then - Um * cos (2 * PI * f * t) else u row) = osc_velocity f Um t b' k' c).
    { intros row b' k' c Hn Hor. unfold osc_velocity. destruct (Z.eqb_spec row i1) as [->|Hn1]; [rewrite N1 in Hn; injection Hn as <- <- <-; reflexivity|].
      destruct (Z.eqb_spec row i0) as [->|Hn0]; [rewrite N0 in Hn; injection Hn as <- <- <-; reflexivity|]. destruct Hor as [->|Hu]; [|exact Hu]. exfalso.
      pose proof (nthZ_In _ _ _ Hn) as Hin. apply (body_layout_In size 2 [b] Hok) in Hin. destruct Hin as (bo & Eb & _ & Hc). pose proof (nthZ_Some_range _ _ _ Eb) as Rb. change (lenZ [b]) with 1%Z in Rb. assert (b' = 0%Z) as -> by lia.
      assert (c = 0 \/ c = 1)%Z as [->| ->] by lia; [apply Hn0|apply Hn1]; eapply nthZ_NoDup_inj; eauto; apply (body_layout_NoDup size 2 [b] Hok). }
    split; [intros row b' c Hn; apply U; auto|]. intros k' HQ row b' c Hn. apply U; auto.
  - exists ub'. split; [exact E|]. intros row b' i c Hn. apply Q; [|exact Hn]. pose proof (nthZ_In _ _ _ Hn) as Hin. apply (body_layout_In size 2 [b] Hok) in Hin.
    destruct Hin as (bo & Eb & Hi & Hc). pose proof (nthZ_Some_range _ _ _ Eb) as Rb. change (lenZ [b]) with 1%Z in Rb. assert (b' = 0%Z) as -> by lia. injection Eb as <-.
    assert (Sp : spread size b) by (destruct Hok as (_ & _ & Hf); now inversion Hf). destruct (owner_of size 2 [b] Hok b i Sp Hi) as (r & Hr & Ho).
    apply in_flat_map. exists r. split; apply zrange_In; lia.
Qed.

Lemma osc_prescribed m D f Am Um b coords0 : m_dim m = 2%Z -> bodies_ok m D [(b, coords0)] ->
  prescribed m D [(b, coords0)] (osc_motion (nranks D) f Am Um b coords0) (osc_pos f Am coords0) (osc_velocity f Um).
Proof.
  intros Hd [Hp Hf] t. inversion Hf as [|? ? [H1 H2] _]; subst. cbn [fst snd] in *. rewrite Hd in *. split; [|split].
  - constructor; [|constructor]. clear - H2. induction coords0 as [|row u IH]; [constructor|]. inversion H2; subst. constructor; [|auto]. symmetry. assumption.
  - intros l Hl. apply osc_move_at; auto.
  - intros v. destruct (osc_vel_at (nranks D) f Um b t v Hp) as (v' & E & Hv). exists v'. split; [exact E|]. unfold holds_velocity. rewrite Hd. exact Hv.
Qed.

(** The velocity is the derivative of the position. *)
Lemma osc_derivative f Am x0 t : derivable_pt_lim (fun t => x0 - Am * sin (2 * PI * f * t)) t (- osc_Um f Am * cos (2 * PI * f * t)).
Proof.
  assert (E : - osc_Um f Am * cos (2 * PI * f * t) = 0 - Am * (cos (2 * PI * f * t) * (2 * PI * f))) by (unfold osc_Um; ring). rewrite E.
  apply (derivable_pt_lim_minus (fun _ => x0) (fun t => Am * sin (2 * PI * f * t))); [apply derivable_pt_lim_const|].
  apply (derivable_pt_lim_scal (fun t => sin (2 * PI * f * t)) Am). apply (derivable_pt_lim_comp (fun t => 2 * PI * f * t) sin); [|apply derivable_pt_lim_sin].
  pose proof (derivable_pt_lim_scal id (2 * PI * f) t 1 (derivable_pt_lim_id t)) as X. rewrite Rmult_1_r in X. exact X.
Qed.
