From Coq Require Import String ZifyBool.
From Verif Require Import Prelude ConfigModel OptModel OptSpec.
Local Open Scope string_scope.

Lemma insert_value l db k : insert_file db l k = first_of (last_value l k) (db k).
Proof.
  unfold insert_file. revert db. induction l as [|[k' v] t IH]; intros db; [reflexivity|]. cbn [fold_left last_value]. rewrite IH. unfold opt_set. cbn [fst snd].
  rewrite (String.eqb_sym k' k). destruct (last_value t k); [reflexivity|]. cbn [first_of]. now destruct (k =? k').
Qed.
Lemma last_value_In l k v : last_value l k = Some v -> In (k, v) l.
Proof.
  induction l as [|[k' v'] t IH]; [discriminate|]. cbn [last_value]. destruct (last_value t k); [intros H; injection H as ->; right; auto|].
  destruct (String.eqb_spec k' k); [|discriminate]. intros H. injection H as ->. subst. now left.
Qed.
Lemma settings_inv files name config db db' s : ksp_settings files name config db = Ok (db', s) ->
  (forall k, db' k = first_of (last_value (file_of files config) k) (db k)) /\ (forall o, s o = first_of (db' (opt_name name o)) (default_value o)).
Proof.
  unfold ksp_settings, file_of. intros H. apply bind_ok_inv in H. destruct H as (db1 & E & H). injection H as <- <-. split.
  - intros k. destruct (config =? "None"); [injection E as <-; reflexivity|]. destruct (files config) as [l|]; [|discriminate]. injection E as <-. apply insert_value.
  - intros o. unfold default_value. destruct (db1 (opt_name name o)); reflexivity.
Qed.
(** The files inserted so far. *)
Definition earlier (files : string -> option (list (string * string))) (l : list (string * string)) : list (string * string) := flat_map (fun c => file_of files (snd c)) l.
Lemma last_value_app a b k : last_value (a ++ b) k = first_of (last_value b k) (last_value a k).
Proof.
  induction a as [|[k' v] t IH]; [cbn; now destruct (last_value b k)|]. cbn [app last_value]. rewrite IH. destruct (last_value b k); [reflexivity|]. reflexivity.
Qed.
Lemma create_inv files l db ss : create_solvers files l db = Ok ss -> lenZ ss = lenZ l /\
  forall i name config s, nthZ l i = Some (name, config) -> nthZ ss i = Some s ->
    forall o, s o = first_of (first_of (last_value (flat_map (fun c => file_of files (snd c)) (firstn (Z.to_nat i + 1) l)) (opt_name name o)) (db (opt_name name o))) (default_value o).
Proof.
  revert db ss. induction l as [|[nm cf] t IH]; intros db ss H; cbn [create_solvers] in H.
  - injection H as <-. split; [reflexivity|]. intros i name config s Hi. apply nthZ_Some_range in Hi. unfold lenZ in Hi. cbn in Hi. lia.
  - apply bind_ok_inv in H. destruct H as ([db' s0] & E & H). apply bind_ok_inv in H. destruct H as (ss' & E' & H). injection H as <-.
    destruct (settings_inv _ _ _ _ _ _ E) as [D1 D2]. destruct (IH _ _ E') as [L G]. split; [rewrite !lenZ_cons; lia|]. intros i name config s Hi Hs o.
    pose proof (nthZ_Some_range _ _ _ Hi) as Hr. destruct (Z.eq_dec i 0) as [->|N].
    + rewrite nthZ_cons_0 in Hi. rewrite nthZ_cons_0 in Hs. injection Hi as <- <-. injection Hs as <-. rewrite D2, D1. cbn [firstn Z.to_nat Nat.add flat_map snd]. now rewrite app_nil_r.
    + rewrite nthZ_cons_pos in Hi by lia. rewrite nthZ_cons_pos in Hs by lia. rewrite (G _ _ _ _ Hi Hs o), D1. replace (Z.to_nat i + 1)%nat with (S (Z.to_nat (i - 1) + 1)) by lia. cbn [firstn flat_map snd].
      rewrite last_value_app. now destruct (last_value (flat_map _ _) _).
Qed.

(** * Prefixes *)
Lemma names_apart n1 n2 o1 o2 : In n1 ["velocity"; "poisson"; "forces"] -> In n2 ["velocity"; "poisson"; "forces"] -> opt_name n1 o1 = opt_name n2 o2 -> n1 = n2 /\ o1 = o2.
Proof.
  intros H1 H2 E. unfold opt_name in E. cbn in H1, H2.
  repeat match goal with H : _ \/ _ |- _ => destruct H as [H|H] end; subst; try contradiction; cbn in E; try discriminate; injection E; auto.
Qed.

Lemma flat_last (files : string -> option (list (string * string))) (l : list (string * string)) k v : last_value (flat_map (fun c => file_of files (snd c)) l) k = Some v -> exists c, In c l /\ In (k, v) (file_of files (snd c)).
Proof. intros H. apply last_value_In, in_flat_map in H. exact H. Qed.
Lemma last_none l k : (forall v, ~ In (k, v) l) -> last_value l k = None.
Proof. intros H. destruct (last_value l k) eqn:E; [|reflexivity]. exfalso. exact (H _ (last_value_In _ _ _ E)). Qed.
Lemma firstn_snoc {A} (l : list A) i x : nthZ l i = Some x -> firstn (Z.to_nat i + 1) l = (firstn (Z.to_nat i) l ++ [x])%list.
Proof.
  revert i. induction l as [|y t IH]; intros i H; pose proof (nthZ_Some_range _ _ _ H) as Hr; [unfold lenZ in Hr; cbn in Hr; lia|].
  destruct (Z.eq_dec i 0) as [->|N]; [rewrite nthZ_cons_0 in H; injection H as ->; reflexivity|]. rewrite nthZ_cons_pos in H by lia.
  replace (Z.to_nat i + 1)%nat with (S (Z.to_nat (i - 1) + 1)) by lia. replace (Z.to_nat i) with (S (Z.to_nat (i - 1))) by lia. cbn [firstn]. rewrite (IH _ H). reflexivity.
Qed.

(** A solver's own file wins. *)
Lemma own_file files l db ss i name config s o v : create_solvers files l db = Ok ss -> nthZ l i = Some (name, config) -> nthZ ss i = Some s ->
  last_value (file_of files config) ("-" ++ name ++ "_" ++ o) = Some v -> s o = Some v.
Proof.
  intros H Hi Hs Hv. destruct (create_inv _ _ _ _ H) as [_ G]. rewrite (G _ _ _ _ Hi Hs o), (firstn_snoc _ _ _ Hi), flat_map_app, last_value_app. cbn [flat_map snd]. rewrite app_nil_r.
  unfold opt_name. rewrite Hv. reflexivity.
Qed.
Lemma separated files l db ss i name config s o : create_solvers files l db = Ok ss -> nthZ l i = Some (name, config) -> nthZ ss i = Some s ->
  (forall n c, In (n, c) l -> In n ["velocity"; "poisson"; "forces"] /\ only_own n (file_of files c)) -> NoDup (map fst l) ->
  s o = first_of (first_of (last_value (file_of files config) ("-" ++ name ++ "_" ++ o)) (db ("-" ++ name ++ "_" ++ o))) (default_value o).
Proof.
  intros H Hi Hs Hf Hnd. destruct (create_inv _ _ _ _ H) as [_ G]. rewrite (G _ _ _ _ Hi Hs o), (firstn_snoc _ _ _ Hi), flat_map_app, last_value_app. cbn [flat_map snd]. rewrite app_nil_r.
  change ("-" ++ name ++ "_" ++ o) with (opt_name name o). f_equal. f_equal.
  destruct (last_value (flat_map _ _) _) eqn:E; [exfalso|clear; destruct (last_value (file_of files config) (opt_name name o)); reflexivity].
  apply flat_last in E. destruct E as ([n c] & Hin & Hc). cbn [snd] in Hc.
  assert (Hl : l = (firstn (Z.to_nat i) l ++ (name, config) :: skipn (Z.to_nat i + 1) l)%list).
  { rewrite <- (firstn_skipn (Z.to_nat i + 1) l) at 1. rewrite (firstn_snoc _ _ _ Hi), <- app_assoc. reflexivity. }
  assert (Hin' : In (n, c) l) by (rewrite Hl; apply in_app_iff; now left). destruct (Hf _ _ Hin') as [N1 O1]. destruct (O1 _ _ Hc) as [o' Eo].
  assert (Hn : In (name, config) l) by (rewrite Hl; apply in_app_iff; right; now left). destruct (Hf _ _ Hn) as [N2 _].
  destruct (names_apart _ _ _ _ N2 N1 Eo) as [-> _]. rewrite Hl, map_app in Hnd. cbn [map fst] in Hnd. apply NoDup_remove_2 in Hnd. apply Hnd. apply in_app_iff. left.
  apply in_map_iff. exists (n, c). auto.
Qed.
(** Later files do not matter. *)
Lemma later_files files files' l db ss ss' i name config s s' o : create_solvers files l db = Ok ss -> create_solvers files' l db = Ok ss' ->
  nthZ l i = Some (name, config) -> nthZ ss i = Some s -> nthZ ss' i = Some s' ->
  (forall k n c, (0 <= k <= i)%Z -> nthZ l k = Some (n, c) -> files c = files' c) -> s o = s' o.
Proof.
  intros H H' Hi Hs Hs' Hf. destruct (create_inv _ _ _ _ H) as [_ G]. destruct (create_inv _ _ _ _ H') as [_ G']. rewrite (G _ _ _ _ Hi Hs o), (G' _ _ _ _ Hi Hs' o). f_equal. f_equal. f_equal.
  pose proof (nthZ_Some_range _ _ _ Hi) as Hr.
  assert (X : forall x, In x (firstn (Z.to_nat i + 1) l) -> files (snd x) = files' (snd x)).
  { clear - Hf Hr. intros [n c] Hx. apply In_nthZ in Hx. destruct Hx as (k & Hkr & Hk).
    assert (L : (k < Z.of_nat (Z.to_nat i + 1))%Z) by (unfold lenZ in Hkr; rewrite firstn_length in Hkr; lia).
    apply (Hf k n c); [lia|]. rewrite <- (firstn_skipn (Z.to_nat i + 1) l). rewrite nthZ_app_l by lia. exact Hk. }
  induction (firstn (Z.to_nat i + 1) l) as [|x t IH]; [reflexivity|]. cbn [flat_map]. rewrite IH by (intros; apply X; now right). f_equal. unfold file_of. now rewrite (X x (or_introl eq_refl)).
Qed.
