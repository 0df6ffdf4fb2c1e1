From Coq Require Import Permutation ZifyBool.
From Verif Require Import Prelude ZSum TypesModel IndexModel IndexSpec.
Local Open Scope Z_scope.

(** * Natural index *)

Lemma natural_range n i j k : 1 <= n 0 -> 1 <= n 1 -> 1 <= n 2 -> interior n (i, j, k) ->
  0 <= natural n (i, j, k) < npoints n.
Proof.
  unfold interior, natural, npoints. intros H0 H1 H2 (Hi & Hj & Hk).
  assert (0 <= j * n 0 <= (n 1 - 1) * n 0) by nia.
  assert (0 <= k * n 1 <= (n 2 - 1) * n 1) by nia.
  assert (0 <= k * n 1 * n 0 <= (n 2 - 1) * n 1 * n 0) by nia. nia.
Qed.

Lemma natural_div n i j k : 0 <= i < n 0 -> 0 <= j < n 1 ->
  natural n (i, j, k) mod n 0 = i /\ (natural n (i, j, k) / n 0) mod n 1 = j /\
  (natural n (i, j, k) / n 0) / n 1 = k.
Proof.
  intros Hi Hj. unfold natural.
  destruct (div_mod_unique2 (i + j * n 0 + k * n 1 * n 0) (n 0) (j + k * n 1) i) as [E1 E2]; [lia|lia|lia|].
  rewrite E1, E2. destruct (div_mod_unique2 (j + k * n 1) (n 1) k j) as [E3 E4]; [lia|lia|lia|].
  rewrite E3, E4. auto.
Qed.

Lemma natural_inj n p q : interior n p -> interior n q -> natural n p = natural n q -> p = q.
Proof.
  destruct p as [[i j] k], q as [[i' j'] k']. intros (Hi & Hj & Hk) (Hi' & Hj' & Hk') E.
  destruct (natural_div n i j k Hi Hj) as (A & B & C).
  destruct (natural_div n i' j' k' Hi' Hj') as (A' & B' & C'). rewrite E in *. congruence.
Qed.

Lemma natural_surj n x : 1 <= n 0 -> 1 <= n 1 -> 1 <= n 2 -> 0 <= x < npoints n ->
  exists p, interior n p /\ natural n p = x.
Proof.
  intros H0 H1 H2 Hx. unfold npoints in Hx.
  exists (x mod n 0, (x / n 0) mod n 1, x / n 0 / n 1). unfold interior, natural.
  pose proof (Z.mod_pos_bound x (n 0) ltac:(lia)).
  pose proof (Z.mod_pos_bound (x / n 0) (n 1) ltac:(lia)).
  pose proof (Z.div_mod x (n 0) ltac:(lia)) as E1.
  pose proof (Z.div_mod (x / n 0) (n 1) ltac:(lia)) as E2.
  assert (0 <= x / n 0 < n 1 * n 2).
  { split; [apply Z.div_pos; lia|]. apply Z.div_lt_upper_bound; nia. }
  assert (0 <= x / n 0 / n 1 < n 2).
  { split; [apply Z.div_pos; lia|]. apply Z.div_lt_upper_bound; nia. }
  split; [auto|]. rewrite E1 at 4. rewrite E2 at 3. ring.
Qed.

Lemma wrap_in n i : 0 <= i < n -> wrap n i = i.
Proof. intros. unfold wrap. apply Z.mod_small. lia. Qed.
Lemma wrap_m1 n : 1 <= n -> wrap n (-1) = n - 1.
Proof. intros. unfold wrap. symmetry. apply Z.mod_unique with (-1); lia. Qed.
Lemma wrap_n n : 1 <= n -> wrap n n = 0.
Proof. intros. unfold wrap. apply Z.mod_same. lia. Qed.

Lemma outside_spec n i : outside n i = true <-> i < 0 \/ n <= i.
Proof. unfold outside. lia. Qed.

Definition getNat_image_stmt debug dim n per p :=
  let '(i, j, k) := p in
  getNaturalIndex debug dim n per i j k
  = Ok (if has_image n per p then natural n (image n p) else -1).

Lemma natural_at_most_one debug dim n per p :
  sizes_ok dim n -> in_frame n p -> n_outside n p <= 1 ->
  let '(i, j, k) := p in
  getNaturalIndex debug dim n per i j k
  = Ok (if has_image n per p then natural n (image n p) else -1).
Proof.
  destruct p as [[i j] k]. intros (Hd & H0 & H1 & H2 & Hz) (Fi & Fj & Fk) Ho.
  unfold n_outside in Ho. unfold getNaturalIndex, has_image, natural, image.
  match goal with |- (if ?b then _ else _) = _ => replace b with false by (destruct debug; simpl; lia) end.
  assert (Kd : dim = 2 -> n 2 = 1) by exact Hz.
  assert (Kk : forall x, 0 <= x < n 2 -> (if dim =? 3 then x * n 1 * n 0 else 0) = x * n 1 * n 0).
  { intros x Hx. destruct (Z.eqb_spec dim 3); [reflexivity|]. assert (x = 0) by lia. subst. ring. }
  destruct (outside (n 0) i) eqn:Oi.
  - assert (Oj : outside (n 1) j = false) by (destruct (outside (n 1) j), (outside (n 2) k); auto; lia).
    assert (Ok' : outside (n 2) k = false) by (destruct (outside (n 1) j), (outside (n 2) k); auto; lia).
    rewrite Oj, Ok'. simpl implb. simpl andb. unfold outside in *.
    assert (Ij : 0 <= j < n 1) by lia. assert (Ik : 0 <= k < n 2) by lia.
    rewrite (wrap_in (n 1) j), (wrap_in (n 2) k) by lia.
    destruct (Z.eqb_spec i (-1)) as [->|Hi].
    + rewrite wrap_m1 by lia. rewrite Kk by lia. destruct (per 0); reflexivity.
    + destruct (Z.eqb_spec i (n 0)) as [->|Hi']; [|lia]. rewrite wrap_n by lia. rewrite Kk by lia.
      destruct (per 0); reflexivity.
  - unfold outside in Oi. destruct (Z.eqb_spec i (-1)); [lia|]. destruct (Z.eqb_spec i (n 0)); [lia|].
    rewrite (wrap_in (n 0) i) by lia.
    destruct (outside (n 1) j) eqn:Oj.
    + assert (Ok' : outside (n 2) k = false) by (destruct (outside (n 2) k); auto; lia).
      rewrite Ok'. simpl implb. simpl andb. unfold outside in *.
      rewrite (wrap_in (n 2) k) by lia. rewrite !Kk by lia.
      destruct (Z.eqb_spec j (-1)) as [->|Hj].
      * rewrite wrap_m1 by lia. destruct (per 1); reflexivity.
      * destruct (Z.eqb_spec j (n 1)) as [->|Hj']; [|lia]. rewrite wrap_n by lia.
        destruct (per 1); simpl; f_equal; lia.
    + unfold outside in Oj. destruct (Z.eqb_spec j (-1)); [lia|]. destruct (Z.eqb_spec j (n 1)); [lia|].
      rewrite (wrap_in (n 1) j) by lia. simpl implb. simpl andb.
      destruct (outside (n 2) k) eqn:Ok'; unfold outside in Ok'; simpl implb.
      * destruct (Z.eqb_spec k (-1)) as [->|Hk].
        { rewrite wrap_m1 by lia. rewrite Kk by lia. destruct (per 2); reflexivity. }
        destruct (Z.eqb_spec k (n 2)) as [->|Hk']; [|lia]. rewrite wrap_n by lia.
        destruct (per 2); simpl; f_equal; lia.
      * rewrite (wrap_in (n 2) k) by lia. rewrite (Kk k) by lia.
        destruct (Z.eqb_spec k (-1)); [lia|]. destruct (Z.eqb_spec k (n 2)); [lia|]. reflexivity.
Qed.

Lemma interior_n_outside n p : interior n p -> in_frame n p /\ n_outside n p = 0 /\ image n p = p.
Proof.
  destruct p as [[i j] k]. intros (Hi & Hj & Hk). unfold in_frame, n_outside, image, outside.
  rewrite !wrap_in by lia.
  replace ((i <? 0) || (i >=? n 0)) with false by lia.
  replace ((j <? 0) || (j >=? n 1)) with false by lia.
  replace ((k <? 0) || (k >=? n 2)) with false by lia. split; [lia|]. split; reflexivity.
Qed.

Lemma natural_interior debug dim n per i j k :
  sizes_ok dim n -> interior n (i, j, k) ->
  getNaturalIndex debug dim n per i j k = Ok (natural n (i, j, k)).
Proof.
  intros Hs Hin. destruct (interior_n_outside n (i, j, k) Hin) as (F & O & I).
  pose proof (natural_at_most_one debug dim n per (i, j, k) Hs F ltac:(lia)) as E. cbn beta iota in E.
  rewrite E, I. replace (has_image n per (i, j, k)) with true; [reflexivity|].
  destruct Hin as (Hi & Hj & Hk). unfold has_image, outside.
  replace ((i <? 0) || (i >=? n 0)) with false by lia.
  replace ((j <? 0) || (j >=? n 1)) with false by lia.
  replace ((k <? 0) || (k >=? n 2)) with false by lia. reflexivity.
Qed.

Lemma image_interior n p : 1 <= n 0 -> 1 <= n 1 -> 1 <= n 2 -> interior n (image n p).
Proof.
  destruct p as [[i j] k]. intros. unfold image, interior, wrap.
  repeat split; apply Z.mod_pos_bound; lia.
Qed.

(** * Decomposition *)

Lemma dec_ok_l D n f d q : dec_ok D n f -> 0 <= d < 3 -> 0 <= q < ds_np D d -> 0 <= ds_l D f d q.
Proof. intros [_ H] Hd Hq. apply (proj1 (H d Hd)). auto. Qed.

Lemma rcoord_range D n f d r : dec_ok D n f -> 0 <= d < 3 -> 0 <= r < nranks D ->
  0 <= rcoord D d r < ds_np D d.
Proof.
  intros [Hnp _] Hd Hr. unfold nranks in Hr.
  pose proof (Hnp 0 ltac:(lia)). pose proof (Hnp 1 ltac:(lia)). pose proof (Hnp 2 ltac:(lia)).
  unfold rcoord. destruct (Z.eqb_spec d 0) as [->|]; [apply Z.mod_pos_bound; lia|].
  destruct (Z.eqb_spec d 1) as [->|]; [apply Z.mod_pos_bound; lia|].
  assert (d = 2) by lia. subst. split; [apply Z.div_pos; nia|]. apply Z.div_lt_upper_bound; nia.
Qed.

Lemma rank_of D n f qx qy qz : dec_ok D n f ->
  0 <= qx < ds_np D 0 -> 0 <= qy < ds_np D 1 -> 0 <= qz < ds_np D 2 ->
  let r := qx + qy * ds_np D 0 + qz * (ds_np D 0 * ds_np D 1) in
  0 <= r < nranks D /\ rcoord D 0 r = qx /\ rcoord D 1 r = qy /\ rcoord D 2 r = qz.
Proof.
  intros [Hnp _] Hx Hy Hz. cbn zeta. unfold nranks, rcoord.
  pose proof (Hnp 0 ltac:(lia)). pose proof (Hnp 1 ltac:(lia)). pose proof (Hnp 2 ltac:(lia)).
  cbn [Z.eqb Pos.eqb].
  set (a := ds_np D 0) in *. set (b := ds_np D 1) in *. set (c := ds_np D 2) in *.
  assert (Hxy : 0 <= qx + qy * a < a * b) by nia.
  assert (Hab : 1 <= a * b) by nia.
  split; [set (e := a * b) in *; replace (qx + qy * a + qz * e) with ((qx + qy * a) + qz * e) by lia; nia|].
  destruct (div_mod_unique2 (qx + qy * a + qz * (a * b)) a (qy + qz * b) qx) as [E1 E2]; [lia|lia|lia|].
  destruct (div_mod_unique2 (qy + qz * b) b qz qy) as [E3 E4]; [lia|lia|lia|].
  destruct (div_mod_unique2 (qx + qy * a + qz * (a * b)) (a * b) qz (qx + qy * a)) as [E5 E6]; [nia|nia|lia|].
  rewrite E1, E2, E4, E5. auto.
Qed.

Lemma rank_decompose D n f r : dec_ok D n f -> 0 <= r < nranks D ->
  r = rcoord D 0 r + rcoord D 1 r * ds_np D 0 + rcoord D 2 r * (ds_np D 0 * ds_np D 1).
Proof.
  intros [Hnp _] Hr. unfold rcoord. cbn [Z.eqb Pos.eqb].
  pose proof (Hnp 0 ltac:(lia)). pose proof (Hnp 1 ltac:(lia)).
  set (a := ds_np D 0) in *. set (b := ds_np D 1) in *.
  rewrite <- Z.div_div by lia.
  pose proof (Z.div_mod r a ltac:(lia)) as E1. pose proof (Z.div_mod (r / a) b ltac:(lia)) as E2.
  rewrite E1 at 1. rewrite E2 at 1. ring.
Qed.

Lemma rcoord_inj D n f r r' : dec_ok D n f -> 0 <= r < nranks D -> 0 <= r' < nranks D ->
  (forall d, 0 <= d < 3 -> rcoord D d r = rcoord D d r') -> r = r'.
Proof.
  intros H Hr Hr' E. rewrite (rank_decompose D n f r H Hr), (rank_decompose D n f r' H Hr').
  rewrite !E by lia. reflexivity.
Qed.

Lemma d_ed_S D n f d r : dec_ok D n f -> 0 <= d < 3 -> 0 <= r < nranks D ->
  d_ed D f d r = isum (ds_l D f d) 0 (rcoord D d r + 1).
Proof.
  intros H Hd Hr. unfold d_ed, d_bg, d_m. rewrite isum_snoc; [reflexivity|].
  pose proof (rcoord_range D n f d r H Hd Hr). lia.
Qed.

Lemma d_m_nonneg D n f d r : dec_ok D n f -> 0 <= d < 3 -> 0 <= r < nranks D -> 0 <= d_m D f d r.
Proof. intros H Hd Hr. unfold d_m. eapply dec_ok_l; eauto. eapply rcoord_range; eauto. Qed.

Lemma d_range D n f d r : dec_ok D n f -> 0 <= d < 3 -> 0 <= r < nranks D ->
  0 <= d_bg D f d r <= d_ed D f d r /\ d_ed D f d r <= n d.
Proof.
  intros H Hd Hr. pose proof (rcoord_range D n f d r H Hd Hr) as Hc.
  pose proof (d_m_nonneg D n f d r H Hd Hr).
  assert (0 <= d_bg D f d r) by (apply isum_nonneg; intros; eapply dec_ok_l; eauto; lia).
  rewrite (d_ed_S D n f d r H Hd Hr). destruct H as [Hnp H2]. destruct (H2 d Hd) as [Hl E].
  split; [|rewrite <- E; apply isum_le; [auto|lia]].
  split; [auto|]. unfold d_bg. apply isum_le; [|lia]. intros; apply Hl; lia.
Qed.

Lemma box_In i0 i1 j0 j1 k0 k1 i j k :
  In (i, j, k) (box i0 i1 j0 j1 k0 k1) <-> i0 <= i < i1 /\ j0 <= j < j1 /\ k0 <= k < k1.
Proof.
  unfold box. rewrite in_flat_map. split.
  - intros (k' & Hk & H). apply in_flat_map in H. destruct H as (j' & Hj & H).
    apply in_map_iff in H. destruct H as (i' & E & Hi). injection E as -> -> ->.
    apply zrange_In in Hk, Hj, Hi. auto.
  - intros (Hi & Hj & Hk). exists k. split; [now apply zrange_In|]. apply in_flat_map.
    exists j. split; [now apply zrange_In|]. apply in_map_iff. exists i. split; auto. now apply zrange_In.
Qed.

Lemma box_NoDup i0 i1 j0 j1 k0 k1 : NoDup (box i0 i1 j0 j1 k0 k1).
Proof.
  unfold box. apply NoDup_flat_map; [apply zrange_NoDup| |].
  - intros k _. apply NoDup_flat_map; [apply zrange_NoDup| |].
    + intros j _. apply FinFun.Injective_map_NoDup; [|apply zrange_NoDup]. intros a b E. congruence.
    + intros a b x _ _ Ha Hb. apply in_map_iff in Ha, Hb. destruct Ha as (? & <- & _), Hb as (? & E & _). congruence.
  - intros a b x _ _ Ha Hb. apply in_flat_map in Ha, Hb.
    destruct Ha as (? & _ & Ha), Hb as (? & _ & Hb). apply in_map_iff in Ha, Hb.
    destruct Ha as (? & <- & _), Hb as (? & E & _). congruence.
Qed.

Lemma box_lenZ i0 i1 j0 j1 k0 k1 : i0 <= i1 -> j0 <= j1 -> k0 <= k1 ->
  lenZ (box i0 i1 j0 j1 k0 k1) = (i1 - i0) * (j1 - j0) * (k1 - k0).
Proof.
  intros Hi Hj Hk. unfold box. rewrite flat_map_lenZ.
  rewrite (isum_ext _ (fun _ => (j1 - j0) * (i1 - i0))).
  - rewrite isum_const by lia. ring.
  - intros k _. rewrite flat_map_lenZ. rewrite (isum_ext _ (fun _ => i1 - i0)).
    + rewrite isum_const by lia. ring.
    + intros j _. rewrite lenZ_map, zrange_lenZ by lia. reflexivity.
Qed.

Lemma local_points_In D f r i j k : In (i, j, k) (local_points D f r) <->
  d_bg D f 0 r <= i < d_ed D f 0 r /\ d_bg D f 1 r <= j < d_ed D f 1 r /\ d_bg D f 2 r <= k < d_ed D f 2 r.
Proof. apply box_In. Qed.

Lemma local_points_lenZ D n f r : dec_ok D n f -> 0 <= r < nranks D ->
  lenZ (local_points D f r) = d_m D f 0 r * d_m D f 1 r * d_m D f 2 r.
Proof.
  intros H Hr. unfold local_points.
  pose proof (d_range D n f 0 r H ltac:(lia) Hr). pose proof (d_range D n f 1 r H ltac:(lia) Hr).
  pose proof (d_range D n f 2 r H ltac:(lia) Hr).
  rewrite box_lenZ by lia. unfold d_ed. f_equal; [f_equal|]; lia.
Qed.

(** Every interior point lies in the local box of exactly one rank. *)
Lemma owner_exists D n f p : dec_ok D n f -> interior n p ->
  exists r, 0 <= r < nranks D /\ In p (local_points D f r).
Proof.
  destruct p as [[i j] k]. intros H (Hi & Hj & Hk).
  pose proof H as [Hnp H2].
  assert (Loc : forall d x, 0 <= d < 3 -> 0 <= x < n d -> exists q, 0 <= q < ds_np D d /\
            isum (ds_l D f d) 0 q <= x < isum (ds_l D f d) 0 (q + 1)).
  { intros d x Hd Hx. destruct (H2 d Hd) as [Hl E]. apply isum_locate; [specialize (Hnp d Hd); lia|auto|lia]. }
  destruct (Loc 0 i ltac:(lia) Hi) as (qx & Hqx & Ex).
  destruct (Loc 1 j ltac:(lia) Hj) as (qy & Hqy & Ey).
  destruct (Loc 2 k ltac:(lia) Hk) as (qz & Hqz & Ez).
  destruct (rank_of D n f qx qy qz H Hqx Hqy Hqz) as (Hr & R0 & R1 & R2).
  eexists; split; [exact Hr|]. apply local_points_In.
  rewrite !(d_ed_S D n f) by (auto; lia). unfold d_bg. rewrite R0, R1, R2. auto.
Qed.

Lemma owner_unique D n f p r r' : dec_ok D n f ->
  0 <= r < nranks D -> 0 <= r' < nranks D ->
  In p (local_points D f r) -> In p (local_points D f r') -> r = r'.
Proof.
  destruct p as [[i j] k]. intros H Hr Hr' A B.
  apply local_points_In in A. apply local_points_In in B.
  rewrite !(d_ed_S D n f) in A by (auto; lia). rewrite !(d_ed_S D n f) in B by (auto; lia).
  unfold d_bg in A, B. destruct A as (A0 & A1 & A2), B as (B0 & B1 & B2).
  apply (rcoord_inj D n f); auto. intros d Hd.
  assert (Hl : forall q, 0 <= q < ds_np D d -> 0 <= ds_l D f d q) by (intros; eapply dec_ok_l; eauto).
  pose proof (rcoord_range D n f d r H Hd Hr). pose proof (rcoord_range D n f d r' H Hd Hr').
  assert (d = 0 \/ d = 1 \/ d = 2) as [->|[->| ->]] by lia;
    eapply isum_locate_unique; eauto.
Qed.

Lemma local_interior D n f p r : dec_ok D n f -> 0 <= r < nranks D ->
  In p (local_points D f r) -> interior n p.
Proof.
  destruct p as [[i j] k]. intros H Hr A. apply local_points_In in A.
  pose proof (d_range D n f 0 r H ltac:(lia) Hr). pose proof (d_range D n f 1 r H ltac:(lia) Hr).
  pose proof (d_range D n f 2 r H ltac:(lia) Hr). unfold interior. lia.
Qed.

Lemma field_layout_NoDup D n f : dec_ok D n f -> NoDup (field_layout D f).
Proof.
  intros H. unfold field_layout. apply NoDup_flat_map; [apply zrange_NoDup| |].
  - intros r _. apply box_NoDup.
  - intros r r' p Hr Hr' A B. apply zrange_In in Hr, Hr'. eapply owner_unique; eauto.
Qed.

Lemma field_layout_In D n f p : dec_ok D n f -> (In p (field_layout D f) <-> interior n p).
Proof.
  intros H. unfold field_layout. rewrite in_flat_map. split.
  - intros (r & Hr & A). apply zrange_In in Hr. eapply local_interior; eauto.
  - intros Hp. destruct (owner_exists D n f p H Hp) as (r & Hr & A). exists r. split; auto. now apply zrange_In.
Qed.

Lemma field_layout_len D n f : 0 <= n 0 -> 0 <= n 1 -> 0 <= n 2 -> dec_ok D n f ->
  lenZ (field_layout D f) = npoints n.
Proof.
  intros H0 H1 H2 H. assert (P : Permutation (field_layout D f) (box 0 (n 0) 0 (n 1) 0 (n 2))).
  { apply NoDup_Permutation; [eapply field_layout_NoDup; eauto|apply box_NoDup|].
    intros [[i j] k]. rewrite (field_layout_In D n f) by auto. rewrite box_In. reflexivity. }
  unfold lenZ. rewrite (Permutation_length P). fold (lenZ (box 0 (n 0) 0 (n 1) 0 (n 2))).
  rewrite box_lenZ by lia. unfold npoints. ring.
Qed.

Lemma petsc_order_map D n f : petsc_order D n f = map (natural n) (field_layout D f).
Proof.
  unfold petsc_order, field_layout. induction (zrange 0 (nranks D)) as [|r t IH]; [reflexivity|].
  simpl. now rewrite IH, map_app.
Qed.

Lemma map_nthZ_inv {A B} (g : A -> B) l i y : nthZ (map g l) i = Some y -> exists x, nthZ l i = Some x /\ g x = y.
Proof. rewrite nthZ_map. destruct (nthZ l i); simpl; intros H; [|discriminate]. injection H as <-. eauto. Qed.

(** The global index is the position in the field's vector. *)
Lemma ao_interior D n f p : dec_ok D n f -> interior n p ->
  nthZ (field_layout D f) (ao_apply D n f (natural n p)) = Some p.
Proof.
  intros H Hp. unfold ao_apply.
  assert (Hin : In (natural n p) (petsc_order D n f)).
  { rewrite petsc_order_map. apply in_map. now apply (field_layout_In D n f). }
  destruct (findpos_In Z.eqb Z.eqb_eq _ _ 0 Hin) as [a Ea]. rewrite Ea.
  apply (findpos_Some Z.eqb Z.eqb_eq) in Ea. destruct Ea as [_ Ea].
  replace (a - 0) with a in Ea by lia. rewrite petsc_order_map in Ea.
  apply map_nthZ_inv in Ea. destruct Ea as (p' & E1 & E2).
  assert (p' = p); [|subst; exact E1].
  apply (natural_inj n); auto. apply (field_layout_In D n f); auto. eapply nthZ_In; eauto.
Qed.

Lemma ao_outside D n f x : 1 <= n 0 -> 1 <= n 1 -> 1 <= n 2 -> dec_ok D n f ->
  (x < 0 \/ npoints n <= x) -> ao_apply D n f x = -1.
Proof.
  intros H0 H1 H2 H Hx. unfold ao_apply. destruct (findpos Z.eqb x (petsc_order D n f) 0) eqn:E; [|reflexivity].
  apply (findpos_Some Z.eqb Z.eqb_eq) in E. destruct E as [_ E]. apply nthZ_In in E.
  rewrite petsc_order_map in E. apply in_map_iff in E. destruct E as ([[i j] k] & <- & Hp).
  apply (field_layout_In D n f) in Hp; auto. pose proof (natural_range n i j k H0 H1 H2 Hp). lia.
Qed.

(** * Offsets *)

Lemma offsets_shift cnt l : NoDup l -> forall o r,
  fold_left (fun o r => upd1 o r (cnt (r - 1))) l o r = if existsb (Z.eqb r) l then cnt (r - 1) else o r.
Proof.
  induction l as [|x t IH]; intros Hnd o r; [reflexivity|]. inversion Hnd; subst. simpl.
  rewrite IH by auto. unfold upd1. destruct (Z.eqb_spec r x) as [->|]; simpl; [|reflexivity].
  destruct (existsb (Z.eqb x) t) eqn:E; [|reflexivity]. reflexivity.
Qed.

Lemma existsb_zrange r a b : existsb (Z.eqb r) (zrange a b) = (a <=? r) && (r <? b).
Proof.
  destruct (existsb (Z.eqb r) (zrange a b)) eqn:E.
  - apply existsb_exists in E. destruct E as (x & Hx & E). apply zrange_In in Hx. lia.
  - symmetry. apply not_true_is_false. intros C.
    assert (existsb (Z.eqb r) (zrange a b) = true); [|congruence].
    apply existsb_exists. exists r. split; [apply zrange_In; lia|apply Z.eqb_refl].
Qed.

Lemma existsb_rev r l : existsb (Z.eqb r) (rev l) = existsb (Z.eqb r) l.
Proof.
  induction l as [|x t IH]; [reflexivity|]. simpl. rewrite existsb_app, IH. simpl. rewrite orb_false_r. apply orb_comm.
Qed.

Lemma offsets_accum o size : 1 <= size -> forall r, 0 <= r ->
  fold_left (fun o r => upd1 o r (o r + o (r - 1))) (zrange 1 size) o r
  = if r <? size then o 0 + isum o 1 (r + 1) else o r.
Proof.
  intros Hs. pattern size. apply (zind_up _ 1); auto.
  - intros r Hr. rewrite zrange_nil by lia. simpl. destruct (Z.ltb_spec r 1); [|reflexivity].
    rewrite isum_nil by lia. replace r with 0 by lia. lia.
  - intros b Hb IH r Hr. rewrite (zrange_app 1 b (b + 1)) by lia. rewrite fold_left_app.
    rewrite (zrange_cons b (b + 1)) by lia. rewrite (zrange_nil (b + 1)) by lia. simpl fold_left at 1.
    unfold upd1 at 1. destruct (Z.eqb_spec r b) as [->|Hne].
    + rewrite !IH by lia. destruct (Z.ltb_spec b b); [lia|]. destruct (Z.ltb_spec (b - 1) b); [|lia].
      destruct (Z.ltb_spec b (b + 1)); [|lia]. replace (b - 1 + 1) with b by lia.
      rewrite (isum_snoc o 1 b) by lia. lia.
    + rewrite IH by lia. destruct (Z.ltb_spec r b); destruct (Z.ltb_spec r (b + 1)); lia.
Qed.

Lemma isum_shift f a b : isum f (a + 1) (b + 1) = isum (fun i => f (i + 1)) a b.
Proof. unfold isum. now rewrite map_zrange_shift. Qed.

Lemma offsets_of_spec size cnt r : 0 <= r < size -> offsets_of size cnt r = isum cnt 0 r.
Proof.
  intros Hr. unfold offsets_of. rewrite offsets_accum by lia. destruct (Z.ltb_spec r size); [|lia].
  assert (Nd : NoDup (rev (zrange 1 size))) by (apply NoDup_rev; apply zrange_NoDup).
  rewrite offsets_shift by auto. rewrite existsb_rev, existsb_zrange. simpl andb.
  replace (1 <=? 0) with false by lia. simpl.
  rewrite (isum_ext _ (fun i => cnt (i - 1))).
  - replace 1 with (0 + 1) by lia. rewrite isum_shift. apply isum_ext. intros i Hi. f_equal. lia.
  - intros i Hi. rewrite offsets_shift by auto. rewrite existsb_rev, existsb_zrange.
    replace ((1 <=? i) && (i <? size)) with true by lia. reflexivity.
Qed.

Lemma upper_bound_map (o : Z -> Z) n v p : 0 <= p < n ->
  (forall q, 0 <= q <= p -> o q <= v) -> (forall q, p < q < n -> v < o q) ->
  upper_bound (map o (zrange 0 n)) v = p + 1.
Proof.
  intros Hp H1 H2.
  assert (G : forall k, 0 <= k <= p + 1 -> upper_bound (map o (zrange (p + 1 - k) n)) v = k).
  { intros k Hk. assert (Hk0 : 0 <= k) by lia. revert Hk. pattern k. apply (zind_up _ 0); [| |exact Hk0].
    - intros _. replace (p + 1 - 0) with (p + 1) by lia. destruct (Z_lt_dec (p + 1) n).
      + rewrite zrange_cons by lia. cbn [map upper_bound]. specialize (H2 (p + 1) ltac:(lia)).
        destruct (Z.ltb_spec v (o (p + 1))); lia.
      + rewrite zrange_nil by lia. reflexivity.
    - intros b Hb IH Hb2. rewrite zrange_cons by lia. cbn [map upper_bound]. specialize (H1 (p + 1 - (b + 1)) ltac:(lia)).
      destruct (Z.ltb_spec v (o (p + 1 - (b + 1)))); [lia|].
      replace (p + 1 - (b + 1) + 1) with (p + 1 - b) by lia. rewrite IH by lia. lia. }
  specialize (G (p + 1) ltac:(lia)). now replace (p + 1 - (p + 1)) with 0 in G by lia.
Qed.

(** * Packed index *)

Lemma UN_len dim D n f r : dec_ok D n f -> f < dim -> 0 <= r < nranks D ->
  UNLocalAllProcs dim D f r = lenZ (local_points D f r).
Proof.
  intros H Hf Hr. unfold UNLocalAllProcs. destruct (Z.ltb_spec f dim); [|lia].
  symmetry. eapply local_points_lenZ; eauto.
Qed.

Lemma fold_UN dim D p f idx : 0 <= f ->
  fold_left (fun s g => s + UNLocalAllProcs dim D g p) (zrange 0 f) idx
  = idx + isum (fun g => UNLocalAllProcs dim D g p) 0 f.
Proof.
  intros Hf. pattern f. apply (zind_up _ 0); auto.
  - rewrite zrange_nil, isum_nil by lia. simpl. lia.
  - intros b Hb IH. rewrite (zrange_app 0 b (b + 1)) by lia. rewrite fold_left_app.
    rewrite (zrange_cons b (b + 1)) by lia. rewrite (zrange_nil (b + 1)) by lia. simpl fold_left at 1.
    rewrite IH, isum_snoc by lia. cbv beta. lia.
Qed.

Definition rank_block (dim : Z) (D : dec) (r : Z) : list (Z * (Z * Z * Z)) :=
  flat_map (fun f => map (fun p => (f, p)) (local_points D f r)) (zrange 0 dim).

Lemma packed_layout_eq dim D : packed_layout dim D = flat_map (rank_block dim D) (zrange 0 (nranks D)).
Proof. reflexivity. Qed.

Definition dec_all (dim : Z) (D : dec) (n : Z -> Z -> Z) : Prop := forall f, 0 <= f < dim -> dec_ok D (n f) f.

Lemma rank_block_len dim D n r : (dim = 2 \/ dim = 3) -> dec_all dim D n -> 0 <= r < nranks D ->
  lenZ (rank_block dim D r) = UPackNLocalAllProcs dim D r.
Proof.
  intros Hd H Hr. unfold rank_block. rewrite flat_map_lenZ.
  rewrite (isum_ext _ (fun f => UNLocalAllProcs dim D f r)).
  - unfold UPackNLocalAllProcs. destruct Hd as [->| ->].
    + rewrite isum_2. unfold UNLocalAllProcs at 5. replace (2 <? 2) with false by lia. lia.
    + rewrite isum_3. lia.
  - intros f Hf. rewrite lenZ_map. symmetry. apply (UN_len dim D (n f)); auto; try lia. 
Qed.

Lemma rank_block_nth dim D n r f i p : dec_all dim D n -> 0 <= f < dim -> 0 <= r < nranks D ->
  nthZ (local_points D f r) i = Some p ->
  nthZ (rank_block dim D r) (isum (fun g => UNLocalAllProcs dim D g r) 0 f + i) = Some (f, p).
Proof.
  intros H Hf Hr Hi. unfold rank_block.
  rewrite (isum_ext _ (fun g => lenZ (map (fun p => (g, p)) (local_points D g r)))).
  - apply (flat_map_nth (fun f => map (fun p => (f, p)) (local_points D f r))); [lia|].
    rewrite nthZ_map, Hi. reflexivity.
  - intros g Hg. rewrite lenZ_map. apply (UN_len dim D (n g)); auto; try lia. apply H. lia.
Qed.

(** Main lemma: the packed index is the position in the packed layout. *)
Lemma packed_interior debug dim n per D f i j k :
  (dim = 2 \/ dim = 3) -> (forall g, 0 <= g < dim -> sizes_ok dim (n g)) -> dec_all dim D n ->
  0 <= f < dim -> interior (n f) (i, j, k) ->
  exists idx, getPackedGlobalIndex debug dim n per D f i j k = Ok idx /\
    nthZ (packed_layout dim D) idx = Some (f, (i, j, k)).
Proof.
  intros Hd Hs H Hf Hin. unfold getPackedGlobalIndex, getGlobalIndex.
  rewrite natural_interior by auto. cbn [bind].
  pose proof (ao_interior D (n f) f (i, j, k) (H f Hf) Hin) as Ha.
  set (a := ao_apply D (n f) f (natural (n f) (i, j, k))) in *.
  pose proof (nthZ_Some_range _ _ _ Ha) as Hra.
  destruct (Z.eqb_spec f 3); [lia|]. destruct (Z.eqb_spec a (-1)); [lia|]. simpl orb. cbv iota.
  eexists; split; [reflexivity|].
  assert (Hnr : 0 <= nranks D).
  { destruct (H f Hf) as [Hnp _]. unfold nranks.
    pose proof (Hnp 0 ltac:(lia)). pose proof (Hnp 1 ltac:(lia)). pose proof (Hnp 2 ltac:(lia)). nia. }
  unfold field_layout in Ha. apply flat_map_nth_inv in Ha; [|auto].
  destruct Ha as (r & x & Hr & Hx & Ea).
  pose proof (nthZ_Some_range _ _ _ Hx) as Hrx.
  assert (Ho : forall q, 0 <= q < nranks D ->
            offsetsAllProcs dim D f q = isum (fun q => lenZ (local_points D f q)) 0 q).
  { intros q Hq. unfold offsetsAllProcs. rewrite offsets_of_spec by auto. apply isum_ext.
    intros q' Hq'. apply (UN_len dim D (n f)); auto; lia. }
  assert (Ep : upper_bound (map (offsetsAllProcs dim D f) (zrange 0 (nranks D))) a = r + 1).
  { apply upper_bound_map; [auto| |].
    - intros q Hq. rewrite Ho by lia.
      assert (isum (fun q => lenZ (local_points D f q)) 0 q <= isum (fun q => lenZ (local_points D f q)) 0 r)
        by (apply isum_le; [intros; apply lenZ_nonneg|lia]). lia.
    - intros q Hq. rewrite Ho by lia.
      assert (isum (fun q => lenZ (local_points D f q)) 0 (r + 1) <= isum (fun q => lenZ (local_points D f q)) 0 q)
        by (apply isum_le; [intros; apply lenZ_nonneg|lia]).
      rewrite isum_snoc in H0 by lia. lia. }
  rewrite Ep. replace (r + 1 - 1) with r by lia.
  rewrite fold_UN by lia. rewrite Ho by auto.
  unfold offsetsPackAllProcs. rewrite offsets_of_spec by auto.
  rewrite packed_layout_eq.
  replace (isum (UPackNLocalAllProcs dim D) 0 r + isum (fun g => UNLocalAllProcs dim D g r) 0 f +
            (a - isum (fun q => lenZ (local_points D f q)) 0 r))
    with (isum (fun q => lenZ (rank_block dim D q)) 0 r + (isum (fun g => UNLocalAllProcs dim D g r) 0 f + x)).
  - apply flat_map_nth; [auto|]. eapply rank_block_nth; eauto.
  - rewrite (isum_ext (fun q => lenZ (rank_block dim D q)) (UPackNLocalAllProcs dim D)); [lia|].
    intros q Hq. eapply rank_block_len; eauto. lia.
Qed.

Lemma packed_layout_In dim D n f p : dec_all dim D n ->
  (In (f, p) (packed_layout dim D) <-> 0 <= f < dim /\ interior (n f) p).
Proof.
  intros H. unfold packed_layout. rewrite in_flat_map. split.
  - intros (r & Hr & A). apply in_flat_map in A. destruct A as (g & Hg & A). apply in_map_iff in A.
    destruct A as (q & E & A). injection E as -> ->. apply zrange_In in Hr, Hg. split; [lia|].
    eapply local_interior; eauto.
  - intros [Hf Hp]. destruct (owner_exists D (n f) f p (H f Hf) Hp) as (r & Hr & A).
    exists r. split; [now apply zrange_In|]. apply in_flat_map. exists f. split; [now apply zrange_In|].
    apply in_map_iff. eauto.
Qed.

Lemma packed_layout_NoDup dim D n : dec_all dim D n -> NoDup (packed_layout dim D).
Proof.
  intros H. unfold packed_layout. apply NoDup_flat_map; [apply zrange_NoDup| |].
  - intros r _. apply NoDup_flat_map; [apply zrange_NoDup| |].
    + intros f _. apply FinFun.Injective_map_NoDup; [intros a b E; congruence|apply box_NoDup].
    + intros a b x _ _ Ha Hb. apply in_map_iff in Ha, Hb. destruct Ha as (? & <- & _), Hb as (? & E & _). congruence.
  - intros r r' [f p] Hr Hr' A B. apply zrange_In in Hr, Hr'.
    apply in_flat_map in A, B. destruct A as (g & Hg & A), B as (g' & Hg' & B).
    apply in_map_iff in A, B. destruct A as (q & E & A), B as (q' & E' & B).
    injection E as -> ->. injection E' as -> ->. apply zrange_In in Hg.
    eapply owner_unique; eauto.
Qed.

Lemma packed_layout_len dim D n : dec_all dim D n ->
  (forall g, 0 <= g < dim -> sizes_ok dim (n g)) -> 0 <= dim ->
  lenZ (packed_layout dim D) = isum (fun f => npoints (n f)) 0 dim.
Proof.
  intros H Hs Hd.
  assert (P : Permutation (packed_layout dim D)
     (flat_map (fun f => map (fun p => (f, p)) (field_layout D f)) (zrange 0 dim))).
  { apply NoDup_Permutation.
    - eapply packed_layout_NoDup; eauto.
    - apply NoDup_flat_map; [apply zrange_NoDup| |].
      + intros f Hf. apply zrange_In in Hf. apply FinFun.Injective_map_NoDup; [intros a b E; congruence|].
        eapply field_layout_NoDup; eauto.
      + intros a b x _ _ Ha Hb. apply in_map_iff in Ha, Hb. destruct Ha as (? & <- & _), Hb as (? & E & _). congruence.
    - intros [f p]. rewrite (packed_layout_In dim D n) by auto. rewrite in_flat_map. split.
      + intros [Hf Hp]. exists f. split; [now apply zrange_In|]. apply in_map_iff. exists p. split; auto.
        apply (field_layout_In D (n f)); auto.
      + intros (g & Hg & A). apply zrange_In in Hg. apply in_map_iff in A. destruct A as (q & E & A).
        injection E as -> ->. split; [auto|]. apply (field_layout_In D (n f)) in A; auto. }
  unfold lenZ at 1. rewrite (Permutation_length P). fold (lenZ (flat_map (fun f => map (fun p => (f, p)) (field_layout D f)) (zrange 0 dim))).
  rewrite flat_map_lenZ. apply isum_ext. intros f Hf. rewrite lenZ_map.
  destruct (Hs f Hf) as (_ & H0 & H1 & H2 & _). apply field_layout_len; auto; lia.
Qed.

(** * DMDA default split *)
Lemma isum_dmda M m k : 1 <= m -> 0 <= M -> 0 <= k <= m ->
  isum (dmda_l M m) 0 k = k * (M / m) + Z.min k (M mod m).
Proof.
  intros Hm HM [Hk Hk2]. revert Hk2. pattern k. apply (zind_up _ 0); auto.
  - intros _. rewrite isum_nil by lia. pose proof (Z.mod_pos_bound M m ltac:(lia)). lia.
  - intros b Hb IH Hb2. rewrite isum_snoc, IH by lia. unfold dmda_l.
    destruct (Z.gtb_spec (M mod m) b); lia.
Qed.

Lemma default_dec_ok np n f : (forall d, 0 <= d < 3 -> 1 <= np d) -> (forall d, 0 <= d < 3 -> 0 <= n f d) ->
  dec_ok (default_dec np n) (n f) f.
Proof.
  intros Hnp Hn. split; [auto|]. intros d Hd. cbn [ds_l ds_np default_dec]. specialize (Hnp d Hd). specialize (Hn d Hd).
  split.
  - intros q Hq. unfold dmda_l. assert (0 <= n f d / np d) by (apply Z.div_pos; lia).
    destruct (n f d mod np d >? q); lia.
  - rewrite isum_dmda by lia. pose proof (Z.mod_pos_bound (n f d) (np d) ltac:(lia)).
    rewrite (Z.div_mod (n f d) (np d)) at 3 by lia. lia.
Qed.

(** * Periodic check *)
Lemma is_periodic_spec b : is_periodic b = true <-> b = PERIODIC.
Proof. destruct b; simpl; split; congruence. Qed.
Lemma is_nobc_spec b : is_nobc b = true <-> b = NOBC.
Proof. destruct b; simpl; split; congruence. Qed.

Definition cp_step (bc : Z -> Z -> bctype) := fun (per : Z -> Z -> bool) (fd : Z * Z) =>
              let '(f, d) := fd in
              let p1 := is_periodic (bc f (d * 2)) in
              let p2 := is_periodic (bc f (d * 2 + 1)) in
              if p1 && negb p2 then Err PETSC_ERR_ARG_INCOMP
              else if negb p1 && p2 then Err PETSC_ERR_ARG_INCOMP
              else Ok (if p1 && p2 then upd2 per f d true else per).

Lemma cp_fold_ok bc l : forall per,
  (forall f d, In (f, d) l -> is_periodic (bc f (d * 2)) = is_periodic (bc f (d * 2 + 1))) ->
  exists per', foldM (cp_step bc) l per = Ok per' /\
    forall f d, per' f d = per f d || (existsb (fun x => (fst x =? f) && (snd x =? d)) l && is_periodic (bc f (d * 2))).
Proof.
  induction l as [|[f d] t IH]; intros per H.
  - exists per. split; [reflexivity|]. intros. simpl. now rewrite orb_false_r.
  - cbn [foldM]. pose proof (H f d (or_introl eq_refl)) as E. unfold cp_step at 1. rewrite <- E.
    rewrite andb_negb_r, andb_negb_l.
    cbn [bind]. rewrite andb_diag.
    destruct (IH (if is_periodic (bc f (d * 2)) then upd2 per f d true else per)) as (per' & E' & Hp).
    { intros. apply H. now right. }
    exists per'. split; [exact E'|]. intros f' d'. rewrite Hp. cbn [existsb fst snd].
    destruct (Z.eqb_spec f f') as [<-|Hf]; [destruct (Z.eqb_spec d d') as [<-|Hd]|].
    + destruct (is_periodic (bc f (d * 2))); unfold upd2; rewrite ?Z.eqb_refl; simpl;
        rewrite ?orb_true_r, ?andb_false_r; reflexivity.
    + destruct (is_periodic (bc f (d * 2))); unfold upd2; rewrite ?Z.eqb_refl; simpl;
        destruct (Z.eqb_spec d' d); try congruence; simpl; reflexivity.
    + destruct (is_periodic (bc f (d * 2))); unfold upd2; simpl;
        destruct (Z.eqb_spec f' f); try congruence; simpl; reflexivity.
Qed.

Lemma cp_fold_err bc l : forall per,
  (exists f d, In (f, d) l /\ is_periodic (bc f (d * 2)) <> is_periodic (bc f (d * 2 + 1))) ->
  foldM (cp_step bc) l per = Err PETSC_ERR_ARG_INCOMP.
Proof.
  induction l as [|[f d] t IH]; intros per (f' & d' & Hin & Hne); [destruct Hin|].
  cbn [foldM]. unfold cp_step at 1.
  destruct (bool_dec (is_periodic (bc f (d * 2))) (is_periodic (bc f (d * 2 + 1)))) as [E|E].
  - rewrite <- E.
    rewrite andb_negb_r, andb_negb_l.
    cbn [bind]. apply IH. destruct Hin as [Heq|Hin]; [congruence|]. eauto.
  - destruct (is_periodic (bc f (d * 2))), (is_periodic (bc f (d * 2 + 1))); simpl; congruence.
Qed.

Lemma pairs9 f d : In (f, d) (list_prod (zrange 0 3) (zrange 0 3)) <-> 0 <= f < 3 /\ 0 <= d < 3.
Proof. rewrite in_prod_iff, !zrange_In. reflexivity. Qed.

Lemma existsb9 f d : 0 <= f < 3 -> 0 <= d < 3 ->
  existsb (fun x => (fst x =? f) && (snd x =? d)) (list_prod (zrange 0 3) (zrange 0 3)) = true.
Proof.
  intros Hf Hd. apply existsb_exists. exists (f, d). split; [now apply pairs9|]. simpl. now rewrite !Z.eqb_refl.
Qed.

Definition count3 (per : Z -> Z -> bool) (d : Z) : Z :=
  fold_left (fun c f => if per f d then c + 1 else c) (zrange 0 3) 0.

Lemma count3_spec per d : count3 per d =
  (if per 0 d then 1 else 0) + (if per 1 d then 1 else 0) + (if per 2 d then 1 else 0).
Proof. unfold count3. change (zrange 0 3) with [0; 1; 2]. simpl. destruct (per 0 d), (per 1 d), (per 2 d); reflexivity. Qed.

Definition cp_dim (bc : Z -> Z -> bctype) : Z := if forallb (fun l => is_nobc (bc 2 l)) (zrange 0 6) then 2 else 3.

Lemma cp_dim_spec bc : sim_dim_is bc (cp_dim bc).
Proof.
  unfold cp_dim, sim_dim_is. destruct (forallb (fun l => is_nobc (bc 2 l)) (zrange 0 6)) eqn:E.
  - left. split; [reflexivity|]. intros l Hl. rewrite forallb_forall in E. apply is_nobc_spec. apply E. now apply zrange_In.
  - right. split; [reflexivity|].
    assert (G : exists l, In l (zrange 0 6) /\ is_nobc (bc 2 l) = false).
    { clear -E. induction (zrange 0 6) as [|x t IH]; [discriminate|]. simpl in E.
      destruct (is_nobc (bc 2 x)) eqn:Ex; [destruct (IH E) as (l & H1 & H2); exists l; simpl; auto|exists x; simpl; auto]. }
    destruct G as (l & Hl & Hx). apply zrange_In in Hl. exists l. split; auto. intros C. apply is_nobc_spec in C. congruence.
Qed.

Lemma sim_dim_unique bc d1 d2 : sim_dim_is bc d1 -> sim_dim_is bc d2 -> d1 = d2.
Proof.
  intros [[-> H]|[-> (l & Hl & H)]] [[-> H']|[-> (l' & Hl' & H')]]; auto; exfalso.
  - apply H'. auto.
  - apply H. auto.
Qed.

Definition cp2_step (dim : Z) (per : Z -> Z -> bool) := fun (_ : unit) (d : Z) =>
  if negb (count3 per d =? 0) && negb (count3 per d =? dim) then Err PETSC_ERR_ARG_INCOMP else Ok tt.

Lemma cp2_fold_ok dim per l : (forall d, In d l -> count3 per d = 0 \/ count3 per d = dim) ->
  foldM (cp2_step dim per) l tt = Ok tt.
Proof.
  induction l as [|d t IH]; intros H; [reflexivity|]. cbn [foldM]. unfold cp2_step at 1.
  destruct (H d (or_introl eq_refl)) as [E|E]; rewrite E, Z.eqb_refl; simpl negb.
  - cbn [andb bind]. apply IH. intros. apply H. now right.
  - rewrite andb_false_r. cbn [bind]. apply IH. intros. apply H. now right.
Qed.

Lemma cp2_fold_err dim per l : (exists d, In d l /\ count3 per d <> 0 /\ count3 per d <> dim) ->
  foldM (cp2_step dim per) l tt = Err PETSC_ERR_ARG_INCOMP.
Proof.
  induction l as [|d t IH]; intros (d' & Hin & H0 & H1); [destruct Hin|]. cbn [foldM]. unfold cp2_step at 1.
  destruct (negb (count3 per d =? 0) && negb (count3 per d =? dim)) eqn:E; [reflexivity|]. cbn [bind].
  apply IH. destruct Hin as [->|Hin]; [|eauto]. lia.
Qed.

Lemma checkPeriodic_unfold bc : checkPeriodicBC bc =
  (do per <- foldM (cp_step bc) (list_prod (zrange 0 3) (zrange 0 3)) (fun _ _ => false);
   do _ <- foldM (cp2_step (cp_dim bc) per) (zrange 0 3) tt; Ok per).
Proof. reflexivity. Qed.

Lemma table_consistent_dec bc :
  (forall f d, In (f, d) (list_prod (zrange 0 3) (zrange 0 3)) ->
     is_periodic (bc f (d * 2)) = is_periodic (bc f (d * 2 + 1))) \/
  (exists f d, In (f, d) (list_prod (zrange 0 3) (zrange 0 3)) /\
     is_periodic (bc f (d * 2)) <> is_periodic (bc f (d * 2 + 1))).
Proof.
  induction (list_prod (zrange 0 3) (zrange 0 3)) as [|[f d] t IH]; [left; easy|].
  destruct (bool_dec (is_periodic (bc f (d * 2))) (is_periodic (bc f (d * 2 + 1)))) as [E|E].
  - destruct IH as [IH|(f' & d' & H1 & H2)].
    + left. intros f' d' [Heq|Hin]; [congruence|auto].
    + right. exists f', d'. simpl; auto.
  - right. exists f, d. simpl; auto.
Qed.

Lemma periodic_check_accepts bc dim : sim_dim_is bc dim -> bc_table_ok bc dim ->
  exists per, checkPeriodicBC bc = Ok per /\
    forall f d, 0 <= f < 3 -> 0 <= d < 3 -> (per f d = true <-> bc f (2 * d) = PERIODIC).
Proof.
  intros Hdim [H1 H2]. pose proof (sim_dim_unique _ _ _ Hdim (cp_dim_spec bc)) as Ed.
  rewrite checkPeriodic_unfold.
  assert (Hc : forall f d, In (f, d) (list_prod (zrange 0 3) (zrange 0 3)) ->
     is_periodic (bc f (d * 2)) = is_periodic (bc f (d * 2 + 1))).
  { intros f d Hin. apply pairs9 in Hin. destruct Hin as [Hf Hd]. specialize (H1 f d Hf Hd).
    rewrite <- !is_periodic_spec in H1. replace (2 * d) with (d * 2) in H1 by lia.
    destruct (is_periodic (bc f (d * 2))), (is_periodic (bc f (d * 2 + 1))); intuition congruence. }
  destruct (cp_fold_ok bc _ (fun _ _ => false) Hc) as (per & E & Hp). rewrite E. cbn [bind].
  assert (Hq : forall f d, 0 <= f < 3 -> 0 <= d < 3 -> per f d = is_periodic (bc f (2 * d))).
  { intros f d Hf Hd. rewrite Hp, existsb9 by auto. simpl. now replace (d * 2) with (2 * d) by lia. }
  rewrite cp2_fold_ok.
  - cbn [bind]. exists per. split; [reflexivity|]. intros f d Hf Hd. rewrite Hq by auto. apply is_periodic_spec.
  - intros d Hd. apply zrange_In in Hd. rewrite count3_spec, !Hq by lia. rewrite <- Ed.
    destruct (H2 d Hd) as [Hn|Ha].
    + left. assert (Fx : forall f, 0 <= f < 3 -> is_periodic (bc f (2 * d)) = false).
      { intros f Hf. destruct (is_periodic (bc f (2 * d))) eqn:Ex; auto. apply is_periodic_spec in Ex. destruct (Hn f Hf Ex). }
      rewrite !Fx by lia. reflexivity.
    + right. destruct Hdim as [[-> Hw]|[-> _]].
      * rewrite (proj2 (is_periodic_spec (bc 0 (2 * d)))) by (apply Ha; lia).
        rewrite (proj2 (is_periodic_spec (bc 1 (2 * d)))) by (apply Ha; lia).
        rewrite Hw by lia. reflexivity.
      * rewrite !(fun f => proj2 (is_periodic_spec (bc f (2 * d)))) by (apply Ha; lia). reflexivity.
Qed.

Lemma periodic_check_rejects bc dim : sim_dim_is bc dim -> ~ bc_table_ok bc dim ->
  checkPeriodicBC bc = Err PETSC_ERR_ARG_INCOMP.
Proof.
  intros Hdim Hno. pose proof (sim_dim_unique _ _ _ Hdim (cp_dim_spec bc)) as Ed.
  rewrite checkPeriodic_unfold. destruct (table_consistent_dec bc) as [Hc|Hc].
  2: { now rewrite cp_fold_err. }
  destruct (cp_fold_ok bc _ (fun _ _ => false) Hc) as (per & E & Hp). rewrite E. cbn [bind].
  assert (Hq : forall f d, 0 <= f < 3 -> 0 <= d < 3 -> per f d = is_periodic (bc f (2 * d))).
  { intros f d Hf Hd. rewrite Hp, existsb9 by auto. simpl. now replace (d * 2) with (2 * d) by lia. }
  assert (G : (exists d, In d (zrange 0 3) /\ count3 per d <> 0 /\ count3 per d <> cp_dim bc) \/
              (forall d, In d (zrange 0 3) -> count3 per d = 0 \/ count3 per d = cp_dim bc)).
  { clear. generalize (zrange 0 3). intros l. induction l as [|d t IH]; [right; easy|].
    destruct (Z.eq_dec (count3 per d) 0) as [E0|E0]; [|destruct (Z.eq_dec (count3 per d) (cp_dim bc)) as [E1|E1]].
    - destruct IH as [(d' & A & B)|IH]; [left; exists d'; simpl; tauto|right]. intros d' [<-|Hi]; auto.
    - destruct IH as [(d' & A & B)|IH]; [left; exists d'; simpl; tauto|right]. intros d' [<-|Hi]; auto.
    - left. exists d. simpl; auto. }
  destruct G as [G|G]; [now rewrite cp2_fold_err|].
  exfalso. apply Hno. split.
  - intros f d Hf Hd. rewrite <- !is_periodic_spec. replace (2 * d) with (d * 2) by lia.
    rewrite (Hc f d) by (now apply pairs9). reflexivity.
  - intros d Hd. destruct (G d ltac:(now apply zrange_In)) as [G0|G0].
    + left. intros f Hf C. rewrite count3_spec, !Hq in G0 by lia.
      apply is_periodic_spec in C.
      assert (f = 0 \/ f = 1 \/ f = 2) as [->|[->| ->]] by lia; rewrite C in G0;
      repeat match type of G0 with context [if ?b then _ else _] => destruct b end; lia.
    + right. rewrite count3_spec, !Hq in G0 by lia. rewrite <- Ed in G0.
      assert (H2d : dim = 2 \/ dim = 3) by (destruct Hdim as [[-> _]|[-> _]]; auto).
      assert (Hw2 : dim = 2 -> is_periodic (bc 2 (2 * d)) = false).
      { intros ->. destruct Hdim as [[_ Hw]|[? _]]; [|lia]. rewrite Hw by lia. reflexivity. }
      intros f Hf. apply is_periodic_spec.
      assert (f = 0 \/ f = 1 \/ f = 2) as [->|[->| ->]] by lia;
      destruct (is_periodic (bc 0 (2 * d))) eqn:B0, (is_periodic (bc 1 (2 * d))) eqn:B1,
               (is_periodic (bc 2 (2 * d))) eqn:B2; auto; exfalso;
      destruct H2d as [-> | ->]; try lia; try (specialize (Hw2 eq_refl); congruence).
Qed.

(** * Stencil order *)
Lemma stencil_lt_spec a b : stencil_lt a b = true <-> lex_lt a b.
Proof.
  unfold stencil_lt, lex_lt.
  repeat match goal with |- context [if ?c then _ else _] => destruct c eqn:? end; split; intros; try lia; try discriminate.
Qed.

Lemma stencil_eq a b : a = b <-> sk a = sk b /\ sj a = sj b /\ si a = si b /\ sc a = sc b.
Proof. destruct a, b; simpl. split; [intros E; injection E; auto|intros (-> & -> & -> & ->); reflexivity]. Qed.

Lemma stencil_trichotomy a b :
  (stencil_lt a b = true /\ stencil_lt b a = false /\ a <> b) \/
  (stencil_lt a b = false /\ stencil_lt b a = true /\ a <> b) \/
  (stencil_lt a b = false /\ stencil_lt b a = false /\ a = b).
Proof.
  pose proof (stencil_lt_spec a b) as H1. pose proof (stencil_lt_spec b a) as H2.
  pose proof (stencil_eq a b) as H3. unfold lex_lt in *.
  destruct (stencil_lt a b), (stencil_lt b a).
  - exfalso. destruct H1 as [H1 _], H2 as [H2 _]. specialize (H1 eq_refl). specialize (H2 eq_refl). lia.
  - left. split; [auto|]. split; [auto|]. rewrite H3. destruct H1 as [H1 _]. specialize (H1 eq_refl). lia.
  - right; left. split; [auto|]. split; [auto|]. rewrite H3. destruct H2 as [H2 _]. specialize (H2 eq_refl). lia.
  - right; right. split; [auto|]. split; [auto|]. rewrite H3. destruct H1 as [_ H1], H2 as [_ H2].
    assert (~ (sk a < sk b \/ sk a = sk b /\ (sj a < sj b \/ sj a = sj b /\ (si a < si b \/ si a = si b /\ sc a < sc b))))
      by (intros C; specialize (H1 C); discriminate).
    assert (~ (sk b < sk a \/ sk b = sk a /\ (sj b < sj a \/ sj b = sj a /\ (si b < si a \/ si b = si a /\ sc b < sc a))))
      by (intros C; specialize (H2 C); discriminate). lia.
Qed.

Lemma stencil_lt_trans a b c : stencil_lt a b = true -> stencil_lt b c = true -> stencil_lt a c = true.
Proof. rewrite !stencil_lt_spec. unfold lex_lt. lia. Qed.

Lemma stencil_lt_irrefl a : stencil_lt a a = false.
Proof. destruct (stencil_lt a a) eqn:E; [|reflexivity]. apply stencil_lt_spec in E. unfold lex_lt in E. lia. Qed.

(** * Local index *)
Lemma local_index_ok dim D n f r i j k :
  (dim = 2 \/ dim = 3) -> dec_ok D n f -> 0 <= r < nranks D -> (dim = 2 -> k = 0) ->
  d_bg D f 0 r - 1 <= i <= d_ed D f 0 r -> d_bg D f 1 r - 1 <= j <= d_ed D f 1 r ->
  (dim = 3 -> d_bg D f 2 r - 1 <= k <= d_ed D f 2 r) ->
  getLocalIndex dim D f r (mkSt k j i 0) =
  Ok (let mx := d_m D f 0 r + 2 in let my := d_m D f 1 r + 2 in
      let kk := if dim =? 3 then k - (d_bg D f 2 r - 1) else 0 in
      (kk * my + (j - (d_bg D f 1 r - 1))) * mx + (i - (d_bg D f 0 r - 1))).
Proof.
  intros Hd H Hr Hk2 Hi Hj Hk. unfold getLocalIndex. cbn [si sj sk].
  replace (0 <? dim) with true by lia. replace (1 <? dim) with true by lia.
  replace ((i <? d_bg D f 0 r - 1) || (i >=? d_ed D f 0 r + 1)) with false by lia.
  replace ((j <? d_bg D f 1 r - 1) || (j >=? d_ed D f 1 r + 1)) with false by lia.
  unfold d_ed. destruct Hd as [-> | ->].
  - cbn [Z.ltb Z.compare Pos.compare Pos.compare_cont andb Z.eqb Pos.eqb]. f_equal. ring.
  - cbn [Z.ltb Z.compare Pos.compare Pos.compare_cont andb Z.eqb Pos.eqb].
    specialize (Hk eq_refl). unfold d_ed in Hk.
    replace ((k <? d_bg D f 2 r - 1) || (k >=? d_bg D f 2 r + d_m D f 2 r + 1)) with false by lia.
    f_equal. ring.
Qed.

(** * Statements in the form used by the property file *)
Lemma periodic_flags_agree_lemma : forall bc dim per,
  sim_dim_is bc dim -> checkPeriodicBC bc = Ok per ->
  forall f g d, 0 <= f < dim -> 0 <= g < dim -> 0 <= d < 3 -> per f d = per g d.
Proof.
  intros bc dim per Hdim E f g d Hf Hg Hd.
  assert (H23 : dim = 2 \/ dim = 3) by (destruct Hdim as [[-> _]|[-> _]]; auto).
  rewrite checkPeriodic_unfold in E. destruct (table_consistent_dec bc) as [Hc|Hc].
  2: { rewrite cp_fold_err in E by auto. discriminate. }
  destruct (cp_fold_ok bc _ (fun _ _ => false) Hc) as (per' & E' & Hp). rewrite E' in E. cbn [bind] in E.
  pose proof (sim_dim_unique _ _ _ Hdim (cp_dim_spec bc)) as Ed.
  assert (G : count3 per' d = 0 \/ count3 per' d = cp_dim bc).
  { destruct (Z.eq_dec (count3 per' d) 0); auto. destruct (Z.eq_dec (count3 per' d) (cp_dim bc)); auto.
    rewrite cp2_fold_err in E; [discriminate|]. exists d. split; [now apply zrange_In|auto]. }
  destruct (foldM (cp2_step (cp_dim bc) per') (zrange 0 3) tt) eqn:E2; cbn [bind] in E; try discriminate.
  injection E as <-.
  assert (Hq : forall f, 0 <= f < 3 -> per' f d = is_periodic (bc f (2 * d))).
  { intros f' Hf'. rewrite Hp, existsb9 by auto. simpl. now replace (d * 2) with (2 * d) by lia. }
  assert (Hw2 : dim = 2 -> per' 2 d = false).
  { intros ->. destruct Hdim as [[_ Hw]|[? _]]; [|lia]. rewrite Hq by lia. rewrite Hw by lia. reflexivity. }
  rewrite count3_spec in G. rewrite <- Ed in G.
  assert (f = 0 \/ f = 1 \/ f = 2) as [->|[->| ->]] by lia;
  assert (g = 0 \/ g = 1 \/ g = 2) as [->|[->| ->]] by lia; auto;
  destruct H23 as [-> | ->]; try lia;
  destruct (per' 0 d), (per' 1 d), (per' 2 d); auto; try lia; exfalso;
  try (specialize (Hw2 eq_refl); discriminate); lia.
Qed.

Lemma natural_interior_range : forall debug dim n per i j k,
  sizes_ok dim n -> interior n (i, j, k) ->
  exists idx, getNaturalIndex debug dim n per i j k = Ok idx /\ 0 <= idx < npoints n.
Proof.
  intros debug dim n per i j k Hs Hin. rewrite natural_interior by auto. eexists; split; [reflexivity|].
  destruct Hs as (_ & H0 & H1 & H2 & _). now apply natural_range.
Qed.

Lemma natural_index_inj : forall debug dim n per i j k i' j' k' idx,
  sizes_ok dim n -> interior n (i, j, k) -> interior n (i', j', k') ->
  getNaturalIndex debug dim n per i j k = Ok idx ->
  getNaturalIndex debug dim n per i' j' k' = Ok idx ->
  (i, j, k) = (i', j', k').
Proof.
  intros debug dim n per i j k i' j' k' idx Hs H1 H2 E1 E2. rewrite natural_interior in E1, E2 by auto.
  apply (natural_inj n); auto. congruence.
Qed.

Lemma natural_index_surj : forall debug dim n per idx,
  sizes_ok dim n -> 0 <= idx < npoints n ->
  exists i j k, interior n (i, j, k) /\ getNaturalIndex debug dim n per i j k = Ok idx.
Proof.
  intros debug dim n per idx Hs Hi. pose proof Hs as (_ & H0 & H1 & H2 & _).
  destruct (natural_surj n idx H0 H1 H2 Hi) as ([[i j] k] & Hin & E). exists i, j, k. split; auto.
  rewrite natural_interior by auto. congruence.
Qed.

Lemma natural_index_ghost_lemma : forall debug dim n per i j k,
  sizes_ok dim n -> in_frame n (i, j, k) -> n_outside n (i, j, k) <= 1 ->
  exists idx, getNaturalIndex debug dim n per i j k = Ok idx /\
    (has_image n per (i, j, k) = false -> idx = -1) /\
    (has_image n per (i, j, k) = true ->
       let '(i', j', k') := image n (i, j, k) in
       interior n (i', j', k') /\ getNaturalIndex debug dim n per i' j' k' = Ok idx).
Proof.
  intros debug dim n per i j k Hs F O.
  pose proof (natural_at_most_one debug dim n per (i, j, k) Hs F O) as E. cbv beta iota in E.
  rewrite E. eexists; split; [reflexivity|]. split; intros H; rewrite H; [reflexivity|].
  pose proof Hs as (_ & H0 & H1 & H2 & _).
  pose proof (image_interior n (i, j, k) H0 H1 H2) as Hin.
  destruct (image n (i, j, k)) as [[i' j'] k']. split; [exact Hin|]. now apply natural_interior.
Qed.

Lemma natural_corner_refuted :
  (exists n per i j k idx, sizes_ok 3 n /\ in_frame n (i, j, k) /\
     has_image n per (i, j, k) = false /\
     getNaturalIndex true 3 n per i j k = Ok idx /\ 0 <= idx < npoints n) /\
  (exists n per i j k, sizes_ok 2 n /\ in_frame n (i, j, k) /\
     has_image n per (i, j, k) = true /\ getNaturalIndex true 2 n per i j k = Ok (-1)).
Proof.
  split.
  - exists (fun _ => 3), (fun d => d =? 0), (-1), 3, 0, 11.
    unfold sizes_ok, in_frame, npoints. repeat split; try lia; reflexivity.
  - exists (fun d => if d =? 2 then 1 else 3), (fun d => d <? 2), (-1), (-1), 0.
    unfold sizes_ok, in_frame. repeat split; try (simpl; lia); reflexivity.
Qed.

Lemma wrap_frame n i : 1 <= n -> -1 <= i <= n -> wrap n i = if i =? -1 then n - 1 else if i =? n then 0 else i.
Proof.
  intros Hn Hi. unfold wrap. destruct (Z.eqb_spec i (-1)) as [->|].
  - symmetry. apply (Z.mod_unique_pos _ _ (-1)); lia.
  - destruct (Z.eqb_spec i n) as [->|]; [apply Z_mod_same_full|apply Z.mod_small; lia].
Qed.
Lemma natural_first_outside : forall debug dim n per i j k,
  sizes_ok dim n -> in_frame n (i, j, k) ->
  let linear p := let '(i, j, k) := p in i + j * n 0 + (if dim =? 3 then k * n 1 * n 0 else 0) in
  (outside (n 0) i = true -> getNaturalIndex debug dim n per i j k = Ok (if per 0 then linear (wrap (n 0) i, j, k) else -1)) /\
  (outside (n 0) i = false -> outside (n 1) j = true -> getNaturalIndex debug dim n per i j k = Ok (if per 1 then linear (i, wrap (n 1) j, k) else -1)) /\
  (outside (n 0) i = false -> outside (n 1) j = false -> outside (n 2) k = true ->
     getNaturalIndex debug dim n per i j k = Ok (if per 2 then linear (i, j, wrap (n 2) k) else -1)).
Proof.
  intros debug dim n per i j k (Hd & H0 & H1 & H2 & Hz) (Fi & Fj & Fk) linear. unfold linear, getNaturalIndex.
  match goal with |- context [debug && ?c] => replace (debug && c) with false by (destruct debug; simpl; lia) end.
  rewrite !wrap_frame by lia. unfold outside. split; [|split].
  - intros Oi. destruct (Z.eqb_spec i (-1)); [reflexivity|]. destruct (Z.eqb_spec i (n 0)); [|lia]. do 2 f_equal.
  - intros Oi Oj. replace (i =? -1) with false by lia. replace (i =? n 0) with false by lia.
    destruct (Z.eqb_spec j (-1)); [reflexivity|]. destruct (Z.eqb_spec j (n 1)); [|lia]. destruct (per 1); [|reflexivity]. f_equal. lia.
  - intros Oi Oj Ok'. replace (i =? -1) with false by lia. replace (i =? n 0) with false by lia. replace (j =? -1) with false by lia. replace (j =? n 1) with false by lia.
    destruct (Z.eqb_spec k (-1)); [reflexivity|]. destruct (Z.eqb_spec k (n 2)); [|lia]. destruct (per 2); [|reflexivity]. destruct (dim =? 3); f_equal; lia.
Qed.
Lemma wrap_shift n i : 1 <= n -> -1 <= i <= n ->
  exists a, wrap n i = i + a * n /\ ((a = 0 /\ outside n i = false) \/ ((a = 1 \/ a = -1) /\ outside n i = true)).
Proof.
  intros Hn Hi. rewrite wrap_frame by lia. unfold outside. destruct (Z.eqb_spec i (-1)); [exists 1; lia|]. destruct (Z.eqb_spec i n); [exists (-1); lia|]. exists 0. lia.
Qed.
Lemma natural_corner_images : forall debug dim n per i j k idx idx',
  sizes_ok dim n -> in_frame n (i, j, k) -> dim = 3 \/ k = 0 -> n_outside n (i, j, k) = 2 \/ (n_outside n (i, j, k) = 3 /\ 2 <= n 2) ->
  has_image n per (i, j, k) = true ->
  getNaturalIndex debug dim n per i j k = Ok idx ->
  getNaturalIndex debug dim n per (wrap (n 0) i) (wrap (n 1) j) (wrap (n 2) k) = Ok idx' -> idx <> idx'.
Proof.
  intros debug dim n per i j k idx idx' Hs HF Hk Ho Hi E E' ->. pose proof Hs as (Hd & H0 & H1 & H2 & Hz). pose proof HF as (Fi & Fj & Fk).
  destruct (natural_first_outside debug dim n per i j k Hs HF) as (X0 & X1 & _). cbv zeta beta iota in X0, X1.
  rewrite natural_interior in E' by (auto; cbn; unfold wrap; repeat split; try (apply Z.mod_pos_bound; lia)). injection E' as <-.
  destruct (wrap_shift (n 0) i H0 Fi) as (a & Ea & Ha). destruct (wrap_shift (n 1) j H1 Fj) as (b & Eb & Hb). destruct (wrap_shift (n 2) k H2 Fk) as (c & Ec & Hc).
  unfold n_outside, has_image, natural in *. rewrite Ea, Eb, Ec in *.
  assert (K3 : (if dim =? 3 then k * n 1 * n 0 else 0) = k * n 1 * n 0) by (destruct Hk as [-> | ->]; [reflexivity|destruct (dim =? 3); lia]).
  rewrite K3 in X0, X1. destruct (outside (n 0) i) eqn:Oi.
  - rewrite (X0 eq_refl) in E. replace (per 0) with true in E by (cbn in Hi; destruct (per 0); auto). injection E as E.
    assert (E2 : n 0 * (n 1 * (b + c * n 2)) = 0) by lia. apply Z.eq_mul_0_r in E2; [|lia]. apply Z.eq_mul_0_r in E2; [|lia].
    destruct (outside (n 1) j), (outside (n 2) k); destruct Hb as [[-> Hb]|[[-> | ->] Hb]]; destruct Hc as [[-> Hc]|[[-> | ->] Hc]]; try discriminate; lia.
  - destruct (outside (n 1) j) eqn:Oj; [|destruct (outside (n 2) k); lia].
    rewrite (X1 eq_refl eq_refl) in E. replace (per 1) with true in E by (cbn in Hi; destruct (per 1); auto; destruct (implb (outside (n 2) k) (per 2)); discriminate). injection E as E.
    assert (a = 0) by (destruct Ha as [[? _]|[_ Ha]]; [auto|discriminate]). subst a.
    assert (E2 : n 0 * (n 1 * (c * n 2)) = 0) by lia. apply Z.eq_mul_0_r in E2; [|lia]. apply Z.eq_mul_0_r in E2; [|lia].
    destruct (outside (n 2) k); [|lia]. destruct Hc as [[-> Hc]|[[-> | ->] Hc]]; try discriminate; lia.
Qed.
Lemma natural_corner_partial : forall debug dim n per i j k,
  sizes_ok dim n -> in_frame n (i, j, k) ->
  (outside (n 0) i = true -> per 0 = false) ->
  (outside (n 0) i = false -> outside (n 1) j = true -> per 1 = false) ->
  n_outside n (i, j, k) >= 1 ->
  (outside (n 0) i = false -> outside (n 1) j = false -> per 2 = false) ->
  getNaturalIndex debug dim n per i j k = Ok (-1).
Proof.
  intros debug dim n per i j k (Hd & H0 & H1 & H2 & Hz) (Fi & Fj & Fk) P0 P1 Ho P2.
  unfold n_outside in Ho. unfold getNaturalIndex.
  match goal with |- (if ?b then _ else _) = _ => replace b with false by (destruct debug; simpl; lia) end.
  destruct (outside (n 0) i) eqn:Oi.
  - rewrite (P0 eq_refl). unfold outside in Oi. destruct (Z.eqb_spec i (-1)); [reflexivity|].
    destruct (Z.eqb_spec i (n 0)); [reflexivity|lia].
  - destruct (outside (n 1) j) eqn:Oj.
    + rewrite (P1 eq_refl eq_refl). unfold outside in Oi, Oj.
      destruct (Z.eqb_spec i (-1)); [lia|]. destruct (Z.eqb_spec i (n 0)); [lia|].
      destruct (Z.eqb_spec j (-1)); [reflexivity|]. destruct (Z.eqb_spec j (n 1)); [reflexivity|lia].
    + rewrite (P2 eq_refl eq_refl). destruct (outside (n 2) k) eqn:Ok'; [|simpl in Ho; lia].
      unfold outside in Oi, Oj, Ok'.
      destruct (Z.eqb_spec i (-1)); [lia|]. destruct (Z.eqb_spec i (n 0)); [lia|].
      destruct (Z.eqb_spec j (-1)); [lia|]. destruct (Z.eqb_spec j (n 1)); [lia|].
      destruct (Z.eqb_spec k (-1)); [reflexivity|]. destruct (Z.eqb_spec k (n 2)); [reflexivity|lia].
Qed.

Lemma packed_bijection : forall debug dim n per D,
  (dim = 2 \/ dim = 3) -> (forall g, 0 <= g < dim -> sizes_ok dim (n g)) ->
  (forall g, 0 <= g < dim -> dec_ok D (n g) g) ->
  (forall f i j k, 0 <= f < dim -> interior (n f) (i, j, k) ->
     exists idx, getPackedGlobalIndex debug dim n per D f i j k = Ok idx /\
                 0 <= idx < isum (fun g => npoints (n g)) 0 dim) /\
  (forall f i j k f' i' j' k' idx,
     0 <= f < dim -> interior (n f) (i, j, k) -> 0 <= f' < dim -> interior (n f') (i', j', k') ->
     getPackedGlobalIndex debug dim n per D f i j k = Ok idx ->
     getPackedGlobalIndex debug dim n per D f' i' j' k' = Ok idx ->
     (f, (i, j, k)) = (f', (i', j', k'))) /\
  (forall idx, 0 <= idx < isum (fun g => npoints (n g)) 0 dim ->
     exists f i j k, 0 <= f < dim /\ interior (n f) (i, j, k) /\
       getPackedGlobalIndex debug dim n per D f i j k = Ok idx).
Proof.
  intros debug dim n per D Hd Hs H.
  pose proof (packed_layout_len dim D n H Hs ltac:(lia)) as HL.
  pose proof (packed_layout_NoDup dim D n H) as HN.
  split; [|split].
  - intros f i j k Hf Hin. destruct (packed_interior debug dim n per D f i j k Hd Hs H Hf Hin) as (idx & E & N).
    exists idx. split; auto. rewrite <- HL. eapply nthZ_Some_range; eauto.
  - intros f i j k f' i' j' k' idx Hf Hin Hf' Hin' E E'.
    destruct (packed_interior debug dim n per D f i j k Hd Hs H Hf Hin) as (x & Ex & N).
    destruct (packed_interior debug dim n per D f' i' j' k' Hd Hs H Hf' Hin') as (x' & Ex' & N').
    assert (x = idx) by congruence. assert (x' = idx) by congruence. subst. congruence.
  - intros idx Hi. rewrite <- HL in Hi. destruct (nthZ_in_range _ _ Hi) as [[f [[i j] k]] E].
    pose proof (nthZ_In _ _ _ E) as Hin. apply (packed_layout_In dim D n) in Hin; auto. destruct Hin as [Hf Hin].
    exists f, i, j, k. split; auto. split; auto.
    destruct (packed_interior debug dim n per D f i j k Hd Hs H Hf Hin) as (x & Ex & N).
    rewrite Ex. f_equal. eapply nthZ_NoDup_inj; eauto.
Qed.

Lemma packed_ghost : forall debug dim n per D f i j k,
  (dim = 2 \/ dim = 3) -> (forall g, 0 <= g < dim -> sizes_ok dim (n g)) ->
  (forall g, 0 <= g < dim -> dec_ok D (n g) g) ->
  0 <= f < dim -> in_frame (n f) (i, j, k) -> n_outside (n f) (i, j, k) <= 1 ->
  (has_image (n f) per (i, j, k) = false ->
     getPackedGlobalIndex debug dim n per D f i j k = Ok (-1)) /\
  (has_image (n f) per (i, j, k) = true ->
     let '(i', j', k') := image (n f) (i, j, k) in
     getPackedGlobalIndex debug dim n per D f i j k = getPackedGlobalIndex debug dim n per D f i' j' k').
Proof.
  intros debug dim n per D f i j k Hd Hs H Hf F O. pose proof (Hs f Hf) as Hsf.
  pose proof Hsf as (_ & H0 & H1 & H2 & _).
  destruct (natural_index_ghost_lemma debug dim (n f) per i j k Hsf F O) as (idx & E & A & B).
  split; intros Hi.
  - unfold getPackedGlobalIndex, getGlobalIndex. rewrite E. cbn [bind]. rewrite (A Hi).
    rewrite ao_outside by (auto; lia). rewrite Z.eqb_refl, orb_true_r. reflexivity.
  - specialize (B Hi). destruct (image (n f) (i, j, k)) as [[i' j'] k']. destruct B as [_ B].
    unfold getPackedGlobalIndex, getGlobalIndex. rewrite E, B. reflexivity.
Qed.

Lemma packed_pressure : forall debug dim n per D i j k,
  sizes_ok dim (n 3) -> dec_ok D (n 3) 3 -> interior (n 3) (i, j, k) ->
  exists idx, getPackedGlobalIndex debug dim n per D 3 i j k = Ok idx /\
    nthZ (field_layout D 3) idx = Some (i, j, k).
Proof.
  intros debug dim n per D i j k Hs H Hin. unfold getPackedGlobalIndex, getGlobalIndex.
  rewrite natural_interior by auto. cbn [bind Z.eqb Pos.eqb orb]. eexists; split; [reflexivity|].
  now apply ao_interior.
Qed.
