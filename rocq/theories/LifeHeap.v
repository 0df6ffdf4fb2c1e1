(** The memory of LifeModel: the invariant of reference counting, and a check of
    programs one variable at a time. *)
From Coq Require Import Permutation.
From Verif Require Import Prelude LifeModel LifeSpec.
Local Open Scope Z_scope.

(** * Lists *)

Definition decode (c : Z * Z) : slot :=
  let i := snd c in
  nth (Z.to_nat (fst c))
    [SdP; Sbc1; Srhs1; Srhs2; Sconv i; Sdiff i; SA; SDBNG; SBNG; SN; SG; SD; SDcorr; SL; SLcorr; SvKsp; SpKsp; SsolU; SsolP;
     Sbc; Smesh; SsolversV; SpView i; SpIsP i; SpIsN i; SpDvec i; SpSvec i; SP; SisDE i; SforcesV; SbDa i; SbPack;
     SH; SE; SEBNH; SBNH; Sf; Sdf; Srhsf; SfKsp; SUB; SmDa i; SmPack; Sside; Sq i;
     LBN; Lright; Ltemp; Lnsp; Lacc i; Lsub; LvIo; LtIo; LvTime; LvRest; LvLog; Lv2; Lt2; LR; LMHat; LRD; LMD; LGH i; LDE i;
     Lswap; Ln; Lphi; LvF; LvBody; Lbacc i; LOp; LM; LMHead; LMInv; Lleft; LBn; Ssol] SdP.

Lemma decode_code s : decode (code s) = s.
Proof. destruct s; reflexivity. Qed.

Lemma slot_eqb_eq x y : slot_eqb x y = true <-> x = y.
Proof.
  unfold slot_eqb. rewrite andb_true_iff, !Z.eqb_eq. split.
  - intros [H1 H2]. rewrite <- (decode_code x), <- (decode_code y). f_equal.
    destruct (code x), (code y); cbn in *; congruence.
  - intros ->; auto.
Qed.

Lemma slot_eqb_refl x : slot_eqb x x = true.
Proof. now apply slot_eqb_eq. Qed.

Lemma slot_eqb_neq x y : slot_eqb x y = false <-> x <> y.
Proof.
  destruct (slot_eqb x y) eqn:E.
  - apply slot_eqb_eq in E. split; [discriminate|congruence].
  - split; [|auto]. intros _ H. apply slot_eqb_eq in H. congruence.
Qed.

Lemma slot_eqb_sym x y : slot_eqb x y = slot_eqb y x.
Proof.
  destruct (slot_eqb x y) eqn:E.
  - apply slot_eqb_eq in E. subst. symmetry. apply slot_eqb_refl.
  - apply slot_eqb_neq in E. symmetry. apply slot_eqb_neq. congruence.
Qed.

Fixpoint occ (i : Z) (l : list Z) : Z := match l with [] => 0 | j :: l' => (if j =? i then 1 else 0) + occ i l' end.

Lemma occ_nonneg i l : 0 <= occ i l.
Proof. induction l as [|j l IH]; cbn; [lia|]. destruct (j =? i); lia. Qed.
Lemma occ_app i l m : occ i (l ++ m) = occ i l + occ i m.
Proof. induction l as [|j l IH]; cbn; [reflexivity|]. rewrite IH. lia. Qed.
Lemma occ_In i l : In i l <-> 1 <= occ i l.
Proof.
  induction l as [|j l IH]; cbn; [split; [tauto|lia]|]. pose proof (occ_nonneg i l). destruct (Z.eqb_spec j i); split; try lia; auto.
  - intros [|]; [congruence|]. apply IH in H0. lia.
  - intros H1. right. apply IH. lia.
Qed.

Fixpoint refs_to (l : list (Z * obj)) (i : Z) : Z :=
  match l with [] => 0 | p :: l' => occ i (o_refs (snd p)) + refs_to l' i end.
Fixpoint held (l : list (slot * option Z)) (i : Z) : Z :=
  match l with
  | [] => 0
  | p :: l' => (match snd p with Some j => if j =? i then 1 else 0 | None => 0 end) + held l' i
  end.

Lemma refs_to_nonneg l i : 0 <= refs_to l i.
Proof. induction l as [|p l IH]; cbn; [lia|]. pose proof (occ_nonneg i (o_refs (snd p))). lia. Qed.
Lemma held_nonneg l i : 0 <= held l i.
Proof. induction l as [|p l IH]; cbn; [lia|]. destruct (snd p) as [j|]; [destruct (j =? i)|]; lia. Qed.

(** ** Objects *)

Lemma find_obj_In l i o : NoDup (map fst l) -> find_obj l i = Some o <-> In (i, o) l.
Proof.
  induction l as [|[j p] l IH]; intros Hnd; cbn; [split; [discriminate|tauto]|].
  inversion Hnd as [|x y Hn Hnd']; subst. destruct (Z.eqb_spec j i) as [->|Hne].
  - split.
    + intros [= ->]. auto.
    + intros [[= ->]|Hin]; [reflexivity|]. exfalso. apply Hn. now apply (in_map fst) in Hin.
  - rewrite IH by assumption. split; [auto|]. intros [[= -> ->]|]; [congruence|auto].
Qed.

Lemma find_obj_none l i : find_obj l i = None <-> ~ In i (map fst l).
Proof.
  induction l as [|[j p] l IH]; cbn; [tauto|]. destruct (Z.eqb_spec j i) as [->|Hne].
  - split; [discriminate|]. intros H. exfalso. apply H. auto.
  - rewrite IH. split; [intros H [|]; congruence|auto].
Qed.

Lemma put_fst l i o : map fst (put_obj l i o) = map fst l.
Proof.
  unfold put_obj. rewrite map_map. apply map_ext_in. intros [j p] _. cbn. destruct (Z.eqb_spec j i); cbn; congruence.
Qed.

Lemma find_put l i o j : find_obj l i <> None -> find_obj (put_obj l i o) j = if i =? j then Some o else find_obj l j.
Proof.
  induction l as [|[k p] l IH]; cbn; [congruence|]. destruct (Z.eqb_spec k i) as [->|Hki]; cbn.
  - intros _. destruct (Z.eqb_spec i j) as [->|Hij]; [reflexivity|].
    clear IH. induction l as [|[k q] l IH]; cbn; [reflexivity|].
    destruct (Z.eqb_spec k i) as [->|]; cbn.
    + destruct (Z.eqb_spec i j); [congruence|]. exact IH.
    + destruct (Z.eqb_spec k j); [reflexivity|]. exact IH.
  - intros H. destruct (Z.eqb_spec k j) as [->|Hkj].
    + destruct (Z.eqb_spec i j); [congruence|reflexivity].
    + apply IH. exact H.
Qed.

Lemma find_del l i j : find_obj (del_obj l i) j = if i =? j then None else find_obj l j.
Proof.
  unfold del_obj. induction l as [|[k p] l IH]; cbn; [now destruct (i =? j)|].
  destruct (Z.eqb_spec k i) as [->|Hki]; cbn.
  - rewrite IH. destruct (Z.eqb_spec i j); reflexivity.
  - destruct (Z.eqb_spec k j) as [->|Hkj]; [|exact IH]. destruct (Z.eqb_spec i j); [congruence|reflexivity].
Qed.

Lemma del_NoDup l i : NoDup (map fst l) -> NoDup (map fst (del_obj l i)).
Proof.
  induction l as [|[k p] l IH]; cbn; [auto|]. intros H. inversion H; subst.
  destruct (k =? i); cbn; [auto|]. constructor; [|auto].
  intros Hin. apply H2. apply in_map_iff in Hin as ([k' p'] & E & Hin). apply filter_In in Hin as [Hin _].
  cbn in E. subst k'. now apply (in_map fst) in Hin.
Qed.

Lemma refs_to_put l i o o' j :
  NoDup (map fst l) -> find_obj l i = Some o -> refs_to (put_obj l i o') j = refs_to l j - occ j (o_refs o) + occ j (o_refs o').
Proof.
  induction l as [|[k p] l IH]; cbn; [discriminate|]. intros Hnd Hf. inversion Hnd as [|x y Hn Hnd']; subst.
  destruct (Z.eqb_spec k i) as [->|Hki]; cbn.
  - injection Hf as ->. replace (map (fun p => if fst p =? i then (i, o') else p) l) with l; [lia|].
    clear IH. rewrite <- (map_id l) at 1. apply map_ext_in. intros [q r] Hin. cbn.
    destruct (Z.eqb_spec q i) as [->|]; [|reflexivity]. exfalso. apply Hn. now apply (in_map fst) in Hin.
  - unfold put_obj in IH. rewrite IH by assumption. lia.
Qed.

Lemma refs_to_del l i o j :
  NoDup (map fst l) -> find_obj l i = Some o -> refs_to (del_obj l i) j = refs_to l j - occ j (o_refs o).
Proof.
  unfold del_obj. induction l as [|[k p] l IH]; cbn; [discriminate|]. intros Hnd Hf. inversion Hnd as [|x y Hn Hnd']; subst.
  destruct (Z.eqb_spec k i) as [->|Hki]; cbn.
  - injection Hf as ->. replace (filter (fun p => negb (fst p =? i)) l) with l; [lia|].
    clear IH. induction l as [|[q r] l IH]; cbn; [reflexivity|]. cbn in Hn.
    destruct (Z.eqb_spec q i) as [->|]; [exfalso; apply Hn; auto|]. cbn. f_equal. apply IH.
    + intros H. apply Hn. auto.
    + inversion Hnd'; subst. constructor; [intros H; apply Hn; auto|assumption].
    + now inversion Hnd'.
  - rewrite IH by assumption. lia.
Qed.

Lemma refs_total_put_same l i o o' :
  NoDup (map fst l) -> find_obj l i = Some o -> length (o_refs o') = length (o_refs o) -> refs_total (put_obj l i o') = refs_total l.
Proof.
  induction l as [|[k p] l IH]; cbn; [discriminate|]. intros Hnd Hf Hlen. inversion Hnd as [|x y Hn Hnd']; subst.
  destruct (Z.eqb_spec k i) as [->|Hki]; cbn.
  - injection Hf as ->. rewrite Hlen. f_equal. clear IH. f_equal.
    rewrite <- (map_id l) at 2. apply map_ext_in. intros [q r] Hin. cbn.
    destruct (Z.eqb_spec q i) as [->|]; [|reflexivity]. exfalso. apply Hn. now apply (in_map fst) in Hin.
  - f_equal. apply IH; assumption.
Qed.

Lemma refs_total_del l i o :
  NoDup (map fst l) -> find_obj l i = Some o -> (refs_total (del_obj l i) + length (o_refs o) = refs_total l)%nat.
Proof.
  induction l as [|[k p] l IH]; cbn; [discriminate|]. intros Hnd Hf. inversion Hnd as [|x y Hn Hnd']; subst.
  destruct (Z.eqb_spec k i) as [->|Hki]; cbn.
  - injection Hf as ->. replace (filter (fun p => negb (fst p =? i)) l) with l; [unfold refs_total; lia|].
    clear IH. induction l as [|[q r] l IH]; cbn; [reflexivity|]. cbn in Hn.
    destruct (Z.eqb_spec q i) as [->|]; [exfalso; apply Hn; auto|]. cbn. f_equal. apply IH.
    + intros H. apply Hn. auto.
    + inversion Hnd'; subst. constructor; [intros H; apply Hn; auto|assumption].
    + now inversion Hnd'.
  - specialize (IH Hnd' Hf). unfold refs_total, del_obj in *. lia.
Qed.

Lemma refs_to_ref l i : 1 <= refs_to l i -> exists j o, In (j, o) l /\ In i (o_refs o).
Proof.
  induction l as [|[j o] l IH]; cbn; [lia|]. intros H. destruct (Z_le_gt_dec 1 (occ i (o_refs o))) as [Ho|Ho].
  - exists j, o. split; [auto|]. now apply occ_In.
  - pose proof (occ_nonneg i (o_refs o)). destruct IH as (j' & o' & Hin & Hr); [lia|]. exists j', o'. auto.
Qed.

Lemma ref_refs_to l i j o : In (j, o) l -> In i (o_refs o) -> 1 <= refs_to l i.
Proof.
  induction l as [|[j' o'] l IH]; cbn; [tauto|]. intros [[= -> ->]|Hin] Hr.
  - apply occ_In in Hr. pose proof (refs_to_nonneg l i). lia.
  - specialize (IH Hin Hr). pose proof (occ_nonneg i (o_refs o')). lia.
Qed.

(** ** Variables *)

Lemma find_var_del l s t : find_var (del_var l s) t = if slot_eqb s t then None else find_var l t.
Proof.
  unfold del_var. induction l as [|[u v] l IH]; cbn; [now destruct (slot_eqb s t)|].
  destruct (slot_eqb u s) eqn:Eu; cbn.
  - rewrite IH. apply slot_eqb_eq in Eu. subst u. destruct (slot_eqb s t); reflexivity.
  - destruct (slot_eqb u t) eqn:Et; [|exact IH]. apply slot_eqb_eq in Et. subst u. now rewrite slot_eqb_sym, Eu.
Qed.

Lemma find_var_set l s v t : find_var (set_var l s v) t = if slot_eqb s t then Some v else find_var l t.
Proof. unfold set_var. cbn. rewrite find_var_del. destruct (slot_eqb s t); reflexivity. Qed.

Lemma del_var_fst l s : NoDup (map fst l) -> NoDup (map fst (del_var l s)) /\ ~ In s (map fst (del_var l s)).
Proof.
  intros H. split.
  - unfold del_var. induction l as [|[u v] l IH]; cbn; [constructor|]. inversion H; subst.
    destruct (slot_eqb u s); cbn; [auto|]. constructor; [|auto].
    intros Hin. apply in_map_iff in Hin as ([u' v'] & E & Hin). apply filter_In in Hin as [Hin _].
    cbn in E. subst u'. apply H2. now apply (in_map fst) in Hin.
  - intros Hin. apply in_map_iff in Hin as ([u v] & E & Hin). cbn in E. subst u. apply filter_In in Hin as [_ Hin].
    cbn in Hin. now rewrite slot_eqb_refl in Hin.
Qed.

Lemma set_var_fst l s v : NoDup (map fst l) -> NoDup (map fst (set_var l s v)).
Proof. intros H. unfold set_var. cbn. constructor; now apply del_var_fst. Qed.

Definition points (v : option (option Z)) (i : Z) : Z :=
  match v with Some (Some j) => if j =? i then 1 else 0 | _ => 0 end.

Lemma held_del l s i : NoDup (map fst l) -> held (del_var l s) i = held l i - points (find_var l s) i.
Proof.
  unfold del_var. induction l as [|[u v] l IH]; cbn; [reflexivity|]. intros H. inversion H as [|x y Hn Hnd]; subst.
  destruct (slot_eqb u s) eqn:Eu; cbn.
  - apply slot_eqb_eq in Eu. subst u. rewrite IH by assumption. replace (find_var l s) with (@None (option Z)).
    + cbn. destruct v as [j|]; cbn; [destruct (j =? i)|]; lia.
    + clear - Hn. induction l as [|[u w] l IH]; cbn in *; [reflexivity|]. destruct (slot_eqb u s) eqn:E.
      * apply slot_eqb_eq in E. subst. tauto.
      * apply IH. tauto.
  - rewrite IH by assumption. lia.
Qed.

Lemma held_set l s v i : NoDup (map fst l) -> held (set_var l s v) i = held l i - points (find_var l s) i + points (Some v) i.
Proof. intros H. unfold set_var. cbn. rewrite held_del by assumption. destruct v; cbn; lia. Qed.

Lemma held_find l s i : find_var l s = Some (Some i) -> 1 <= held l i.
Proof.
  induction l as [|[u v] l IH]; cbn; [discriminate|]. pose proof (held_nonneg l i). destruct (slot_eqb u s).
  - intros [= ->]. cbn. rewrite Z.eqb_refl. lia.
  - intros H1. specialize (IH H1). destruct v as [j|]; cbn; [destruct (j =? i)|]; lia.
Qed.

Lemma find_held l i : NoDup (map fst l) -> 1 <= held l i -> exists s, find_var l s = Some (Some i).
Proof.
  induction l as [|[u v] l IH]; cbn; [lia|]. intros Hnd H. inversion Hnd as [|x y Hn Hnd']; subst.
  destruct v as [j|]; cbn in H; [destruct (Z.eqb_spec j i) as [->|]|].
  - exists u. now rewrite slot_eqb_refl.
  - destruct IH as [s Hs]; [assumption|lia|]. exists s. destruct (slot_eqb u s) eqn:E; [|exact Hs].
    apply slot_eqb_eq in E. subst. exfalso. apply Hn. clear - Hs. induction l as [|[t w] l IH]; cbn in *; [discriminate|].
    destruct (slot_eqb t s) eqn:E; [apply slot_eqb_eq in E; auto|auto].
  - destruct IH as [s Hs]; [assumption|lia|]. exists s. destruct (slot_eqb u s) eqn:E; [|exact Hs].
    apply slot_eqb_eq in E. subst. exfalso. apply Hn. clear - Hs. induction l as [|[t w] l IH]; cbn in *; [discriminate|].
    destruct (slot_eqb t s) eqn:E; [apply slot_eqb_eq in E; auto|auto].
Qed.

Lemma held_two l s t i :
  NoDup (map fst l) -> s <> t -> find_var l s = Some (Some i) -> find_var l t = Some (Some i) -> 2 <= held l i.
Proof.
  intros Hnd Hne Hs Ht. pose proof (held_del l s i Hnd) as E. rewrite Hs in E. cbn in E. rewrite Z.eqb_refl in E.
  assert (H : find_var (del_var l s) t = Some (Some i)).
  { rewrite find_var_del. apply slot_eqb_neq in Hne. now rewrite Hne. }
  apply held_find in H. lia.
Qed.

(** * The invariant *)

(** [pend]: references that neither a variable nor an object holds, because an
    operation is under way. *)
Definition below (objs : list (Z * obj)) (k : kind) (i j : Z) : Prop :=
  exists o', find_obj objs j = Some o' /\ (rank (o_kind o') < rank k \/ rank (o_kind o') = rank k /\ j < i).

Record inv (next : Z) (objs : list (Z * obj)) (vars : list (slot * option Z)) (pend : list Z) : Prop := {
  i_objs : NoDup (map fst objs);
  i_vars : NoDup (map fst vars);
  i_next : forall i o, find_obj objs i = Some o -> 0 <= i < next;
  i_pos : 0 <= next;
  i_count : forall i o, find_obj objs i = Some o -> o_count o = held vars i + refs_to objs i + occ i pend;
  i_alive : forall i o, find_obj objs i = Some o -> 1 <= o_count o;
  i_kids : forall i o j, find_obj objs i = Some o -> In j (o_refs o) -> below objs (o_kind o) i j;
  i_held : forall s i, find_var vars s = Some (Some i) -> find_obj objs i <> None;
  i_pend : forall i, In i pend -> find_obj objs i <> None;
  i_one : forall i, held vars i <= 1 }.

Lemma below_put objs k i j e o o' :
  find_obj objs e = Some o -> o_kind o' = o_kind o -> below objs k i j -> below (put_obj objs e o') k i j.
Proof.
  intros He Hk (q & Hq & Hr). destruct (Z.eqb_spec e j) as [->|Hne].
  - exists o'. rewrite find_put by congruence. rewrite Z.eqb_refl. split; [reflexivity|]. rewrite Hk. congruence.
  - exists q. rewrite find_put by congruence. apply Z.eqb_neq in Hne. rewrite Hne. auto.
Qed.

(** Taking a reference. *)
Lemma inv_incref next objs vars pend i :
  inv next objs vars pend -> find_obj objs i <> None ->
  exists objs', incref objs i = Ok objs' /\ inv next objs' vars (i :: pend) /\
    (forall j o, find_obj objs j = Some o -> exists o', find_obj objs' j = Some o' /\ o_kind o' = o_kind o /\ o_refs o' = o_refs o) /\
    (forall j, find_obj objs j = None -> find_obj objs' j = None).
Proof.
  intros I Hf. destruct (find_obj objs i) as [o|] eqn:E; [|congruence]. unfold incref. rewrite E.
  eexists; split; [reflexivity|]. set (o' := {| o_kind := o_kind o; o_count := o_count o + 1; o_refs := o_refs o |}).
  assert (Fp : forall j, find_obj (put_obj objs i o') j = if i =? j then Some o' else find_obj objs j)
    by (intros j; apply find_put; congruence).
  assert (Rt : forall j, refs_to (put_obj objs i o') j = refs_to objs j)
    by (intros j; rewrite (refs_to_put objs i o o' j (i_objs _ _ _ _ I) E); cbn; lia).
  split; [|split].
  - constructor.
    + rewrite put_fst. apply I.
    + apply I.
    + intros j q. rewrite Fp. destruct (Z.eqb_spec i j) as [->|]; [intros _; exact (i_next _ _ _ _ I _ _ E)|apply I].
    + apply I.
    + intros j q. rewrite Fp, Rt. cbn [occ].
      destruct (Z.eqb_spec i j) as [->|].
      * intros [= <-]. unfold o'; cbn [o_count]. rewrite (i_count _ _ _ _ I _ _ E). lia.
      * intros H. rewrite (i_count _ _ _ _ I _ _ H). lia.
    + intros j q. rewrite Fp. destruct (Z.eqb_spec i j) as [->|]; [|apply I].
      intros [= <-]. cbn. pose proof (i_alive _ _ _ _ I _ _ E). lia.
    + intros j q r. rewrite Fp. destruct (Z.eqb_spec i j) as [->|].
      * intros [= <-] Hin. cbn in *. eapply below_put; [exact E|reflexivity|]. exact (i_kids _ _ _ _ I _ _ _ E Hin).
      * intros H Hin. eapply below_put; [exact E|reflexivity|]. exact (i_kids _ _ _ _ I _ _ _ H Hin).
    + intros s j H. rewrite Fp. destruct (i =? j); [congruence|]. exact (i_held _ _ _ _ I _ _ H).
    + intros j Hin. rewrite Fp. destruct (Z.eqb_spec i j); [congruence|]. destruct Hin as [|Hin]; [congruence|]. exact (i_pend _ _ _ _ I _ Hin).
    + apply I.
  - intros j q H. rewrite Fp. destruct (Z.eqb_spec i j) as [->|]; [|eauto]. exists o'. split; [reflexivity|]. cbn.
    rewrite E in H. injection H as ->. auto.
  - intros j H. rewrite Fp. destruct (Z.eqb_spec i j) as [->|]; [congruence|exact H].
Qed.

(** Changing what an object refers to. *)
Lemma inv_put next objs vars pend pend' e o r' :
  inv next objs vars pend -> find_obj objs e = Some o ->
  (forall j, occ j (o_refs o) + occ j pend = occ j r' + occ j pend') ->
  (forall j, In j r' -> below objs (o_kind o) e j) ->
  inv next (put_obj objs e {| o_kind := o_kind o; o_count := o_count o; o_refs := r' |}) vars pend'.
Proof.
  intros I E Hocc Hb. set (o' := {| o_kind := o_kind o; o_count := o_count o; o_refs := r' |}).
  assert (Fp : forall j, find_obj (put_obj objs e o') j = if e =? j then Some o' else find_obj objs j)
    by (intros j; apply find_put; congruence).
  assert (Rt : forall j, refs_to (put_obj objs e o') j = refs_to objs j - occ j (o_refs o) + occ j r')
    by (intros j; rewrite (refs_to_put objs e o o' j (i_objs _ _ _ _ I) E); reflexivity).
  constructor.
  - rewrite put_fst. apply I.
  - apply I.
  - intros j q. rewrite Fp. destruct (Z.eqb_spec e j) as [->|]; [intros _; exact (i_next _ _ _ _ I _ _ E)|apply I].
  - apply I.
  - intros j q. rewrite Fp, Rt. specialize (Hocc j). destruct (Z.eqb_spec e j) as [->|].
    + intros [= <-]. unfold o'; cbn [o_count]. rewrite (i_count _ _ _ _ I _ _ E). lia.
    + intros H. rewrite (i_count _ _ _ _ I _ _ H). lia.
  - intros j q. rewrite Fp. destruct (Z.eqb_spec e j) as [->|]; [|apply I]. intros [= <-]. cbn. exact (i_alive _ _ _ _ I _ _ E).
  - intros j q r. rewrite Fp. destruct (Z.eqb_spec e j) as [->|].
    + intros [= <-] Hin. cbn in *. eapply below_put; [exact E|reflexivity|auto].
    + intros H Hin. eapply below_put; [exact E|reflexivity|]. exact (i_kids _ _ _ _ I _ _ _ H Hin).
  - intros s j H. rewrite Fp. destruct (e =? j); [congruence|]. exact (i_held _ _ _ _ I _ _ H).
  - intros j Hin. rewrite Fp. destruct (Z.eqb_spec e j); [congruence|]. apply occ_In in Hin.
    specialize (Hocc j). pose proof (occ_nonneg j r'). destruct (Z_le_gt_dec 1 (occ j pend)) as [Hp|Hp].
    + apply occ_In in Hp. exact (i_pend _ _ _ _ I _ Hp).
    + pose proof (occ_nonneg j pend). assert (Hr : 1 <= occ j (o_refs o)) by lia. apply occ_In in Hr.
      destruct (i_kids _ _ _ _ I _ _ _ E Hr) as (q & Hq & _). congruence.
  - apply I.
Qed.

(** Giving references back. *)
Lemma inv_release fuel : forall next objs vars todo,
  inv next objs vars todo -> (length todo + refs_total objs <= fuel)%nat ->
  exists objs', release fuel objs todo = Ok objs' /\ inv next objs' vars [] /\
    (forall j o', find_obj objs' j = Some o' -> exists o, find_obj objs j = Some o /\ o_kind o' = o_kind o /\ o_refs o' = o_refs o).
Proof.
  induction fuel as [|fuel IH]; intros next objs vars todo I Hf.
  - destruct todo; cbn in Hf; [|lia]. exists objs. cbn. split; [reflexivity|split; [exact I|eauto]].
  - destruct todo as [|i rest]; [exists objs; cbn; split; [reflexivity|split; [exact I|eauto]]|].
    cbn [release]. assert (Hi : find_obj objs i <> None) by (apply (i_pend _ _ _ _ I); now left).
    destruct (find_obj objs i) as [o|] eqn:E; [|congruence].
    pose proof (i_count _ _ _ _ I _ _ E) as Hc. cbn [occ] in Hc. rewrite Z.eqb_refl in Hc.
    pose proof (held_nonneg vars i) as Hh. pose proof (refs_to_nonneg objs i) as Hr. pose proof (occ_nonneg i rest) as Ho.
    destruct (Z.eqb_spec (o_count o) 1) as [E1|E1].
    + assert (Hh0 : held vars i = 0) by lia. assert (Hr0 : refs_to objs i = 0) by lia. assert (Ho0 : occ i rest = 0) by lia.
      assert (Fd : forall j, find_obj (del_obj objs i) j = if i =? j then None else find_obj objs j) by (intros; apply find_del).
      assert (Hkid : forall j q r, find_obj objs j = Some q -> In r (o_refs q) -> r <> i).
      { intros j q r Hq Hin ->. apply find_obj_In in Hq; [|apply I]. pose proof (ref_refs_to _ _ _ _ Hq Hin). lia. }
      destruct (IH next (del_obj objs i) vars (o_refs o ++ rest)) as (objs' & R & I' & Hsub).
      * constructor.
        -- apply del_NoDup, I.
        -- apply I.
        -- intros j q. rewrite Fd. destruct (i =? j); [discriminate|apply I].
        -- apply I.
        -- intros j q. rewrite Fd. destruct (Z.eqb_spec i j) as [|Hne]; [discriminate|]. intros Hq.
           rewrite (i_count _ _ _ _ I _ _ Hq), (refs_to_del objs i o j (i_objs _ _ _ _ I) E), occ_app.
           cbn [occ]. apply Z.eqb_neq in Hne. rewrite Hne. lia.
        -- intros j q. rewrite Fd. destruct (i =? j); [discriminate|apply I].
        -- intros j q r. rewrite Fd. destruct (i =? j); [discriminate|]. intros Hq Hin.
           pose proof (Hkid _ _ _ Hq Hin) as Hne. destruct (i_kids _ _ _ _ I _ _ _ Hq Hin) as (q' & Hq' & Hlt).
           exists q'. rewrite Fd. destruct (Z.eqb_spec i r); [congruence|]. auto.
        -- intros s j Hv. rewrite Fd. destruct (Z.eqb_spec i j) as [->|]; [apply held_find in Hv; lia|]. exact (i_held _ _ _ _ I _ _ Hv).
        -- intros j Hin. rewrite Fd. apply in_app_or in Hin as [Hin|Hin].
           ++ destruct (Z.eqb_spec i j) as [<-|]; [exfalso; exact (Hkid _ _ _ E Hin eq_refl)|].
              destruct (i_kids _ _ _ _ I _ _ _ E Hin) as (q & Hq & _). congruence.
           ++ destruct (Z.eqb_spec i j) as [<-|]; [apply occ_In in Hin; lia|]. apply (i_pend _ _ _ _ I). now right.
        -- apply I.
      * rewrite app_length. pose proof (refs_total_del objs i o (i_objs _ _ _ _ I) E). cbn in Hf. lia.
      * exists objs'. split; [exact R|split; [exact I'|]]. intros j o' Hj. destruct (Hsub _ _ Hj) as (q & Hq & Hk & Hrf).
        rewrite Fd in Hq. destruct (i =? j); [discriminate|]. eauto.
    + set (o' := {| o_kind := o_kind o; o_count := o_count o - 1; o_refs := o_refs o |}).
      assert (Fp : forall j, find_obj (put_obj objs i o') j = if i =? j then Some o' else find_obj objs j)
        by (intros j; apply find_put; congruence).
      assert (Rt : forall j, refs_to (put_obj objs i o') j = refs_to objs j)
        by (intros j; rewrite (refs_to_put objs i o o' j (i_objs _ _ _ _ I) E); cbn; lia).
      pose proof (i_alive _ _ _ _ I _ _ E) as Ha.
      destruct (IH next (put_obj objs i o') vars rest) as (objs' & R & I' & Hsub).
      * constructor.
        -- rewrite put_fst. apply I.
        -- apply I.
        -- intros j q. rewrite Fp. destruct (Z.eqb_spec i j) as [->|]; [intros _; exact (i_next _ _ _ _ I _ _ E)|apply I].
        -- apply I.
        -- intros j q. rewrite Fp, Rt. destruct (Z.eqb_spec i j) as [->|Hne].
           ++ intros [= <-]. unfold o'; cbn [o_count]. lia.
           ++ intros Hq. rewrite (i_count _ _ _ _ I _ _ Hq). cbn [occ].
              apply Z.eqb_neq in Hne. rewrite Hne. lia.
        -- intros j q. rewrite Fp. destruct (Z.eqb_spec i j) as [->|]; [|apply I]. intros [= <-]. unfold o'; cbn [o_count]. lia.
        -- intros j q r. rewrite Fp. destruct (Z.eqb_spec i j) as [->|].
           ++ intros [= <-] Hin. cbn in *. eapply below_put; [exact E|reflexivity|]. exact (i_kids _ _ _ _ I _ _ _ E Hin).
           ++ intros H Hin. eapply below_put; [exact E|reflexivity|]. exact (i_kids _ _ _ _ I _ _ _ H Hin).
        -- intros s j H. rewrite Fp. destruct (i =? j); [congruence|]. exact (i_held _ _ _ _ I _ _ H).
        -- intros j Hin. rewrite Fp. destruct (i =? j); [congruence|]. apply (i_pend _ _ _ _ I). now right.
        -- apply I.
      * rewrite (refs_total_put_same objs i o o' (i_objs _ _ _ _ I) E eq_refl). cbn in Hf. lia.
      * exists objs'. split; [exact R|split; [exact I'|]]. intros j q Hj. destruct (Hsub _ _ Hj) as (w & Hw & Hk & Hrf).
        rewrite Fp in Hw. destruct (Z.eqb_spec i j) as [->|]; [|eauto]. injection Hw as <-. cbn in *. eauto.
Qed.

Lemma inv_release_all next objs vars todo :
  inv next objs vars todo ->
  exists objs', release_all objs todo = Ok objs' /\ inv next objs' vars [] /\
    (forall j o', find_obj objs' j = Some o' -> exists o, find_obj objs j = Some o /\ o_kind o' = o_kind o /\ o_refs o' = o_refs o).
Proof. intros I. apply (inv_release _ next objs vars todo I). lia. Qed.

(** Variables. *)
Definition dead (v : option (option Z)) : Prop := match v with Some (Some _) => False | _ => True end.

Lemma inv_del_dead next objs vars pend s :
  inv next objs vars pend -> dead (find_var vars s) -> inv next objs (del_var vars s) pend.
Proof.
  intros I Hd. assert (Hh : forall i, held (del_var vars s) i = held vars i).
  { intros i. rewrite held_del by apply I. unfold points. destruct (find_var vars s) as [[j|]|]; [contradiction|lia|lia]. }
  constructor; try apply I.
  - apply del_var_fst, I.
  - intros i o. rewrite Hh. apply I.
  - intros t i. rewrite find_var_del. destruct (slot_eqb s t); [discriminate|]. apply I.
  - intros i. rewrite Hh. apply I.
Qed.

Lemma inv_set_null next objs vars pend s :
  inv next objs vars pend -> dead (find_var vars s) -> inv next objs (set_var vars s None) pend.
Proof.
  intros I Hd. assert (Hh : forall i, held (set_var vars s None) i = held vars i).
  { intros i. rewrite held_set by apply I. unfold points. destruct (find_var vars s) as [[j|]|]; [contradiction|lia|lia]. }
  constructor; try apply I.
  - apply set_var_fst, I.
  - intros i o. rewrite Hh. apply I.
  - intros t i. rewrite find_var_set. destruct (slot_eqb s t); [discriminate|]. apply I.
  - intros i. rewrite Hh. apply I.
Qed.

Lemma inv_take next objs vars pend s i :
  inv next objs vars pend -> find_var vars s = Some (Some i) -> inv next objs (del_var vars s) (i :: pend).
Proof.
  intros I Hf. assert (Hh : forall j, held (del_var vars s) j = held vars j - (if i =? j then 1 else 0)).
  { intros j. rewrite held_del by apply I. rewrite Hf. reflexivity. }
  constructor; try apply I.
  - apply del_var_fst, I.
  - intros j o Hj. rewrite Hh, (i_count _ _ _ _ I _ _ Hj). cbn [occ]. lia.
  - intros t j. rewrite find_var_del. destruct (slot_eqb s t); [discriminate|]. apply I.
  - intros j [<-|Hin]; [exact (i_held _ _ _ _ I _ _ Hf)|exact (i_pend _ _ _ _ I _ Hin)].
  - intros j. rewrite Hh. pose proof (i_one _ _ _ _ I j). destruct (i =? j); lia.
Qed.

Lemma inv_give next objs vars pend s i :
  inv next objs vars (i :: pend) -> dead (find_var vars s) -> held vars i = 0 -> inv next objs (set_var vars s (Some i)) pend.
Proof.
  intros I Hd H0. assert (Hh : forall j, held (set_var vars s (Some i)) j = held vars j + (if i =? j then 1 else 0)).
  { intros j. rewrite held_set by apply I. cbn. unfold points. destruct (find_var vars s) as [[k|]|]; [contradiction|lia|lia]. }
  constructor; try apply I.
  - apply set_var_fst, I.
  - intros j o Hj. rewrite Hh, (i_count _ _ _ _ I _ _ Hj). cbn [occ]. lia.
  - intros t j. rewrite find_var_set. destruct (slot_eqb s t); [|apply I]. intros [= <-]. apply (i_pend _ _ _ _ I). now left.
  - intros j Hin. apply (i_pend _ _ _ _ I). now right.
  - intros j. rewrite Hh. pose proof (i_one _ _ _ _ I j). destruct (Z.eqb_spec i j) as [->|]; lia.
Qed.

Lemma inv_pend_ext next objs vars pend pend' :
  inv next objs vars pend -> (forall j, occ j pend = occ j pend') -> inv next objs vars pend'.
Proof.
  intros I H. constructor; try apply I.
  - intros i o. rewrite <- H. apply I.
  - intros i Hin. apply occ_In in Hin. rewrite <- H in Hin. apply occ_In in Hin. exact (i_pend _ _ _ _ I _ Hin).
Qed.

(** A new object. *)
Lemma inv_new next objs vars ids s k :
  inv next objs vars ids -> dead (find_var vars s) ->
  (forall j, In j ids -> below objs k next j) ->
  inv (next + 1) ((next, {| o_kind := k; o_count := 1; o_refs := ids |}) :: objs) (set_var vars s (Some next)) [].
Proof.
  intros I Hd Hb.
  assert (Hf : find_obj objs next = None).
  { destruct (find_obj objs next) eqn:E; [|reflexivity]. pose proof (i_next _ _ _ _ I _ _ E). lia. }
  assert (Hh0 : held vars next = 0).
  { pose proof (held_nonneg vars next). destruct (Z_le_gt_dec 1 (held vars next)) as [H1|]; [|lia].
    apply find_held in H1 as [t Ht]; [|apply I]. apply (i_held _ _ _ _ I) in Ht. congruence. }
  assert (Hr0 : refs_to objs next = 0).
  { pose proof (refs_to_nonneg objs next). destruct (Z_le_gt_dec 1 (refs_to objs next)) as [H1|]; [|lia].
    apply refs_to_ref in H1 as (j & o & Hin & Hr). apply find_obj_In in Hin; [|apply I].
    destruct (i_kids _ _ _ _ I _ _ _ Hin Hr) as (q & Hq & _). congruence. }
  assert (Ho0 : occ next ids = 0).
  { pose proof (occ_nonneg next ids). destruct (Z_le_gt_dec 1 (occ next ids)) as [H1|]; [|lia].
    apply occ_In in H1. apply (i_pend _ _ _ _ I) in H1. congruence. }
  assert (Hh : forall j, held (set_var vars s (Some next)) j = held vars j + (if next =? j then 1 else 0)).
  { intros j. rewrite held_set by apply I. cbn. unfold points. destruct (find_var vars s) as [[q|]|]; [contradiction|lia|lia]. }
  assert (Hb' : forall i q j, below objs q i j -> below ((next, {| o_kind := k; o_count := 1; o_refs := ids |}) :: objs) q i j).
  { intros i q j (o & Hj & Hl). exists o. cbn. destruct (Z.eqb_spec next j) as [->|]; [congruence|]. auto. }
  pose proof (i_pos _ _ _ _ I) as Hpos.
  constructor.
  - cbn. constructor; [|apply I]. now apply find_obj_none.
  - apply set_var_fst, I.
  - intros i o. cbn. destruct (Z.eqb_spec next i) as [<-|]; [intros _; lia|]. intros H. pose proof (i_next _ _ _ _ I _ _ H). lia.
  - lia.
  - intros i o. cbn [find_obj refs_to snd o_refs occ]. rewrite Hh. destruct (Z.eqb_spec next i) as [<-|].
    + intros [= <-]. cbn [o_count]. lia.
    + intros H. rewrite (i_count _ _ _ _ I _ _ H). lia.
  - intros i o. cbn. destruct (Z.eqb_spec next i) as [<-|]; [intros [= <-]; cbn; lia|apply I].
  - intros i o j. cbn [find_obj]. destruct (Z.eqb_spec next i) as [<-|].
    + intros [= <-] Hin. cbn in *. auto.
    + intros H Hin. apply Hb'. exact (i_kids _ _ _ _ I _ _ _ H Hin).
  - intros t j. rewrite find_var_set. cbn. destruct (slot_eqb s t).
    + intros [= <-]. now rewrite Z.eqb_refl.
    + intros H. destruct (next =? j); [congruence|]. exact (i_held _ _ _ _ I _ _ H).
  - intros j [].
  - intros j. rewrite Hh. pose proof (i_one _ _ _ _ I j). destruct (Z.eqb_spec next j) as [<-|]; lia.
Qed.

Lemma inv_empty : inv 0 [] [] [].
Proof. constructor; cbn; try constructor; try discriminate; try lia; intros; try contradiction; try discriminate; lia. Qed.

(** ** No garbage *)

Lemma rank_range k : 0 <= rank k <= 12.
Proof. destruct k; cbn; lia. Qed.

Lemma inv_reachable h :
  inv (h_next h) (h_objs h) (h_vars h) [] -> no_garbage h.
Proof.
  intros I.
  assert (G : forall n i o, find_obj (h_objs h) i = Some o ->
              (Z.to_nat (13 * h_next h - (rank (o_kind o) * h_next h + i)) < n)%nat -> reachable h i).
  { induction n as [|n IH]; [lia|]. intros i o Ho Hn.
    pose proof (i_count _ _ _ _ I _ _ Ho) as Hc. pose proof (i_alive _ _ _ _ I _ _ Ho) as Ha. cbn in Hc.
    destruct (Z_le_gt_dec 1 (held (h_vars h) i)) as [H1|H1].
    - apply find_held in H1 as [s Hs]; [|apply I]. exact (held_by_variable h s i Hs).
    - pose proof (held_nonneg (h_vars h) i). assert (H2 : 1 <= refs_to (h_objs h) i) by lia.
      apply refs_to_ref in H2 as (j & q & Hin & Hr). apply find_obj_In in Hin; [|apply I].
      refine (held_by_object h j q i (IH j q Hin _) Hin Hr).
      destruct (i_kids _ _ _ _ I _ _ _ Hin Hr) as (o' & Ho' & Hlt). rewrite Ho in Ho'. injection Ho' as <-.
      pose proof (i_next _ _ _ _ I _ _ Ho). pose proof (i_next _ _ _ _ I _ _ Hin).
      pose proof (rank_range (o_kind o)). pose proof (rank_range (o_kind q)). nia. }
  intros i o Ho. exact (G _ i o Ho (Nat.lt_succ_diag_r _)).
Qed.

Lemma reachable_root h i : reachable h i -> exists s j, find_var (h_vars h) s = Some (Some j).
Proof. induction 1; eauto. Qed.

Lemma inv_nothing h :
  inv (h_next h) (h_objs h) (h_vars h) [] -> (forall s, dead (find_var (h_vars h) s)) -> nothing_alive h.
Proof.
  intros I Hd. unfold nothing_alive. destruct (h_objs h) as [|[i o] l] eqn:E; [reflexivity|]. exfalso.
  assert (Hr : reachable h i).
  { apply (inv_reachable h) with o; [now rewrite E|]. rewrite E. cbn. now rewrite Z.eqb_refl. }
  apply reachable_root in Hr as (s & j & Hs). specialize (Hd s). now rewrite Hs in Hd.
Qed.

(** * Checking one variable at a time *)

Inductive status := Un | Nu | Li (k : kind) (cs : list kind).

Definition keqb (a b : kind) : bool := rank a =? rank b.
Lemma keqb_eq a b : keqb a b = true <-> a = b.
Proof. unfold keqb. rewrite Z.eqb_eq. split; [destruct a, b; cbn; congruence|now intros ->]. Qed.

(** The classes of objects whose references are followed. *)
Definition tracked (k : kind) : bool := keqb k KMesh || keqb k KKsp.
Definition live (st : status) : bool := match st with Li _ _ => true | _ => false end.

Definition check (p : path) (st : status) : bool :=
  match st with
  | Li k cs =>
      match p_kid p with
      | None => keqb k (p_kind p)
      | Some n => tracked k && match nthZ cs n with Some c => keqb c (p_kind p) | None => false end
      end
  | _ => false
  end.

Definition check_at (x : slot) (p : path) (st : status) : bool := if slot_eqb (p_slot p) x then check p st else true.

Definition ask (b : bool) (st : status) : option status := if b then Some st else None.

(** The effect of an operation on one variable, or [None] if it may fail, or may
    lose an object, because of this variable. *)
Definition act (x : slot) (o : op) (st : status) : option status :=
  match o with
  | ONull s => if slot_eqb s x then ask (negb (live st)) Nu else Some st
  | ONew s k ps =>
      if forallb (fun p => rank (p_kind p) <=? rank k) ps && (negb (tracked k) || match ps with [] => true | _ => false end) &&
         forallb (fun p => check_at x p st) ps then
        if slot_eqb s x then ask (negb (live st)) (Li k []) else Some st
      else None
  | ONewIf s k =>
      if slot_eqb s x then
        match st with
        | Un => None
        | Nu => Some (Li k [])
        | Li k' cs => ask (keqb k k') st
        end
      else Some st
  | OLink s k p =>
      if (rank (p_kind p) <? rank k) && check_at x (V s k) st && check_at x p st then
        if slot_eqb s x then Some (match st with Li k' cs => Li k' (if tracked k then cs ++ [p_kind p] else cs) | _ => st end) else Some st
      else None
  | OGive s k t kt =>
      if (rank kt <? rank k) && check_at x (V s k) st && check_at x (V t kt) st then
        if slot_eqb s x then Some (match st with Li k' cs => Li k' (if tracked k then cs ++ [kt] else cs) | _ => st end)
        else if slot_eqb t x then Some Un else Some st
      else None
  | OClear s k => if check_at x (V s k) st then if slot_eqb s x then Some (Li k []) else Some st else None
  | ODrop s => if slot_eqb s x then match st with Un => None | _ => Some Nu end else Some st
  | OUse p => ask (check_at x p st) st
  | OLeave s => if slot_eqb s x then ask (negb (live st)) Un else Some st
  | OMove t s k =>
      if negb (tracked k) && negb (slot_eqb t s) && check_at x (V s k) st then
        if slot_eqb s x then Some Un else if slot_eqb t x then ask (negb (live st)) (Li k []) else Some st
      else None
  end.

Fixpoint acts (x : slot) (l : list op) (st : status) : option status :=
  match l with
  | [] => Some st
  | o :: l' => match act x o st with Some st' => acts x l' st' | None => None end
  end.

Definition rel (h : heap) (x : slot) (st : status) : Prop :=
  match st with
  | Un => find_var (h_vars h) x = None
  | Nu => find_var (h_vars h) x = Some None
  | Li k cs =>
      exists i o, find_var (h_vars h) x = Some (Some i) /\ find_obj (h_objs h) i = Some o /\ o_kind o = k /\
        (if tracked k then Forall2 (fun j c => exists q, find_obj (h_objs h) j = Some q /\ o_kind q = c) (o_refs o) cs
         else cs = [])
  end.

Lemma rel_dead h x st : rel h x st -> live st = false -> dead (find_var (h_vars h) x).
Proof. destruct st; cbn; intros H E; [now rewrite H|now rewrite H|discriminate]. Qed.

Lemma Forall2_nth {A B} (P : A -> B -> Prop) l m n b :
  Forall2 P l m -> nthZ m n = Some b -> exists a, nthZ l n = Some a /\ P a b.
Proof.
  unfold nthZ. destruct (n <? 0); [discriminate|]. intros H. generalize (Z.to_nat n). induction H as [|a c l m Hac H IH]; intros [|k]; cbn; try discriminate.
  - intros [= ->]. eauto.
  - intros E. apply IH in E. exact E.
Qed.

Lemma Forall2_mono {A B} (P Q : A -> B -> Prop) l m : (forall x y, P x y -> Q x y) -> Forall2 P l m -> Forall2 Q l m.
Proof. intros H. induction 1; constructor; auto. Qed.

Lemma resolve_ok h p st :
  rel h (p_slot p) st -> check p st = true ->
  exists i q, resolve h p = Ok i /\ find_obj (h_objs h) i = Some q /\ o_kind q = p_kind p.
Proof.
  destruct st as [| |k cs]; cbn; try discriminate. intros (i & o & Hv & Ho & Hk & Hm) Hc. unfold resolve. rewrite Hv, Ho.
  destruct (p_kid p) as [n|].
  - apply andb_prop in Hc as [Hmesh Hn]. rewrite Hmesh in Hm. destruct (nthZ cs n) as [c|] eqn:E; [|discriminate].
    destruct (Forall2_nth _ _ _ _ _ Hm E) as (j & Hj & q & Hq & Hqc). rewrite Hj, Hq. apply keqb_eq in Hn.
    exists j, q. rewrite Hqc, Hn, Z.eqb_refl. auto.
  - apply keqb_eq in Hc. exists i, o. rewrite Hk, Hc, Z.eqb_refl. split; [reflexivity|split; [auto|congruence]].
Qed.

(** A variable the operation does not touch. *)
Definition evolve (h h' : heap) (e : Z) : Prop :=
  forall j o o', find_obj (h_objs h) j = Some o -> find_obj (h_objs h') j = Some o' ->
    o_kind o' = o_kind o /\ (j <> e -> o_refs o' = o_refs o).

Lemma rel_frame h h' e x st :
  inv (h_next h') (h_objs h') (h_vars h') [] -> evolve h h' e ->
  find_var (h_vars h') x = find_var (h_vars h) x -> find_var (h_vars h) x <> Some (Some e) ->
  rel h x st -> rel h' x st.
Proof.
  intros I He Hv Hx. destruct st as [| |k cs]; cbn; try congruence. intros (i & o & Hi & Ho & Hk & Hm).
  destruct (find_obj (h_objs h') i) as [o'|] eqn:Eo; [|rewrite <- Hv in Hi; apply (i_held _ _ _ _ I) in Hi; congruence].
  destruct (He _ _ _ Ho Eo) as [Hk' Hr']. assert (Hne : i <> e) by congruence. specialize (Hr' Hne).
  exists i, o'. rewrite Hv, Eo. split; [exact Hi|split; [reflexivity|split; [congruence|]]].
  destruct (tracked k); [|exact Hm]. rewrite Hr'.
  assert (Hal : forall j, In j (o_refs o) -> exists q, find_obj (h_objs h') j = Some q).
  { intros j Hj. rewrite <- Hr' in Hj. destruct (i_kids _ _ _ _ I _ _ _ Eo Hj) as (q & Hq & _). eauto. }
  clear - Hm Hal He. induction Hm as [|j c l m (q & Hq & Hqc) Hm IH]; [constructor|]. constructor.
  - destruct (Hal j (or_introl eq_refl)) as [q' Hq']. destruct (He _ _ _ Hq Hq') as [E _]. exists q'. split; [exact Hq'|congruence].
  - apply IH. intros j' Hj'. apply Hal. now right.
Qed.

Lemma check_at_self p x st : check_at x p st = true -> p_slot p = x -> check p st = true.
Proof. unfold check_at. intros H <-. now rewrite slot_eqb_refl in H. Qed.

Section Step.
Variables (h : heap) (a a' : slot -> status).
Hypothesis I : inv (h_next h) (h_objs h) (h_vars h) [].
Hypothesis Hr : forall x, rel h x (a x).

Lemma resolve_at p : (forall x, check_at x p (a x) = true) ->
  exists i q, resolve h p = Ok i /\ find_obj (h_objs h) i = Some q /\ o_kind q = p_kind p.
Proof. intros H. apply (resolve_ok h p (a (p_slot p)) (Hr _)). apply (check_at_self p (p_slot p)); auto. Qed.

Lemma resolve_var s k : (forall x, check_at x (V s k) (a x) = true) ->
  exists i o, resolve h (V s k) = Ok i /\ find_var (h_vars h) s = Some (Some i) /\ find_obj (h_objs h) i = Some o /\ o_kind o = k /\
    exists cs, a s = Li k cs.
Proof.
  intros H. specialize (H s). apply check_at_self in H; [|reflexivity]. specialize (Hr s). unfold resolve.
  destruct (a s) as [| |k' cs] eqn:Ea; cbn in H; try discriminate. apply keqb_eq in H. subst k'.
  destruct Hr as (i & o & Hv & Ho & Hk & _). cbn. rewrite Hv, Ho, Hk, Z.eqb_refl. exists i, o. eauto 8.
Qed.

Definition good (o : op) : Prop :=
  exists h', exec h o = Ok h' /\ inv (h_next h') (h_objs h') (h_vars h') [] /\ forall x, rel h' x (a' x).

Lemma ask_inv b st st' : ask b st = Some st' -> b = true /\ st' = st.
Proof. unfold ask. destruct b; [|discriminate]. intros [= <-]. auto. Qed.

Lemma incref_list : forall ids objs pend vars next,
  inv next objs vars pend -> (forall i, In i ids -> find_obj objs i <> None) ->
  exists objs', foldM incref ids objs = Ok objs' /\ inv next objs' vars (rev ids ++ pend) /\
    (forall j o, find_obj objs j = Some o -> exists o', find_obj objs' j = Some o' /\ o_kind o' = o_kind o /\ o_refs o' = o_refs o) /\
    (forall j, find_obj objs j = None -> find_obj objs' j = None).
Proof.
  clear. induction ids as [|i ids IH]; intros objs pend vars next I Hin; cbn [foldM].
  - exists objs. split; [reflexivity|split; [exact I|split; eauto]].
  - destruct (inv_incref next objs vars pend i I) as (l1 & E1 & I1 & K1 & N1); [apply Hin; now left|].
    rewrite E1. cbn [bind]. destruct (IH l1 (i :: pend) vars next I1) as (l2 & E2 & I2 & K2 & N2).
    + intros j Hj. specialize (Hin j (or_intror Hj)). destruct (find_obj objs j) as [o|] eqn:E; [|congruence].
      destruct (K1 _ _ E) as (o' & Ho' & _). congruence.
    + exists l2. rewrite E2. split; [reflexivity|split].
      * cbn [rev]. rewrite <- app_assoc. exact I2.
      * split; [|auto]. intros j o Ho. destruct (K1 _ _ Ho) as (o1 & Ho1 & A1 & B1). destruct (K2 _ _ Ho1) as (o2 & Ho2 & A2 & B2).
        exists o2. split; [exact Ho2|split; congruence].
Qed.

Lemma occ_rev i l : occ i (rev l) = occ i l.
Proof. clear. induction l as [|j l IH]; [reflexivity|]. cbn [rev]. rewrite occ_app, IH. cbn. lia. Qed.

Lemma resolve_list ps :
  (forall p, In p ps -> forall x, check_at x p (a x) = true) ->
  exists ids, mapM (resolve h) ps = Ok ids /\
    (forall i, In i ids -> exists p q, In p ps /\ find_obj (h_objs h) i = Some q /\ o_kind q = p_kind p).
Proof.
  induction ps as [|p ps IH]; intros H; cbn [mapM].
  - exists []. split; [reflexivity|]. intros i [].
  - destruct (resolve_at p) as (i & q & E & Hq & Hk); [apply H; now left|].
    destruct IH as (ids & E2 & H2); [intros p' Hp'; apply H; now right|]. rewrite E, E2. cbn [bind].
    exists (i :: ids). split; [reflexivity|]. intros j [<-|Hj].
    + exists p, q. split; [now left|auto].
    + destruct (H2 _ Hj) as (p' & q' & Hp' & R). exists p', q'. split; [now right|exact R].
Qed.

(** The variable of a live object is the only one that holds it. *)
Lemma only_holder s x i :
  find_var (h_vars h) s = Some (Some i) -> x <> s -> find_var (h_vars h) x <> Some (Some i).
Proof.
  intros Hs Hne Hx. pose proof (held_two _ s x i (i_vars _ _ _ _ I) (not_eq_sym Hne) Hs Hx). pose proof (i_one _ _ _ _ I i). lia.
Qed.

(** Creating an object. *)
Lemma good_new s k ps :
  (forall p, In p ps -> rank (p_kind p) <= rank k) ->
  (forall p, In p ps -> forall x, check_at x p (a x) = true) ->
  (tracked k = true -> ps = []) ->
  live (a s) = false -> a' s = Li k [] -> (forall x, x <> s -> a' x = a x) ->
  exists h', exec_new h s k ps = Ok h' /\ inv (h_next h') (h_objs h') (h_vars h') [] /\ forall x, rel h' x (a' x).
Proof.
  intros Hrank Hch Hmesh Hd Hs Ho. destruct (resolve_list ps Hch) as (ids & E & Hids). unfold exec_new. rewrite E. cbn [bind].
  assert (Hlow : forallb (lower (h_objs h) k (h_next h)) ids = true).
  { apply forallb_forall. intros i Hi. destruct (Hids _ Hi) as (p & q & Hp & Hq & Hk). unfold lower. rewrite Hq, Hk.
    specialize (Hrank _ Hp). pose proof (i_next _ _ _ _ I _ _ Hq). lia. }
  rewrite Hlow. destruct (incref_list ids (h_objs h) [] (h_vars h) (h_next h) I) as (l & E2 & I2 & K & N).
  { intros i Hi. destruct (Hids _ Hi) as (p & q & _ & Hq & _). congruence. }
  rewrite E2. cbn [bind]. eexists. split; [reflexivity|]. cbn [h_next h_objs h_vars].
  match goal with |- ?A /\ _ => assert (I3 : A) end.
  { apply inv_new.
    - apply (inv_pend_ext _ _ _ _ ids I2). intros j. rewrite app_nil_r. apply occ_rev.
    - exact (rel_dead h s (a s) (Hr s) Hd).
    - intros j Hj. destruct (Hids _ Hj) as (p & q & Hp & Hq & Hk). destruct (K _ _ Hq) as (q' & Hq' & Hk' & _).
      exists q'. split; [exact Hq'|]. specialize (Hrank _ Hp). pose proof (i_next _ _ _ _ I _ _ Hq). rewrite Hk', Hk. lia. }
  split; [exact I3|].
  assert (Hnone : find_obj (h_objs h) (h_next h) = None).
  { destruct (find_obj (h_objs h) (h_next h)) eqn:En; [|reflexivity]. pose proof (i_next _ _ _ _ I _ _ En). lia. }
  intros x. destruct (slot_eqb s x) eqn:Ex.
  - apply slot_eqb_eq in Ex. subst x. rewrite Hs. cbn. exists (h_next h), {| o_kind := k; o_count := 1; o_refs := ids |}.
    rewrite slot_eqb_refl, Z.eqb_refl. split; [reflexivity|split; [reflexivity|split; [reflexivity|]]].
    destruct (tracked k); [|reflexivity]. rewrite (Hmesh eq_refl) in E. cbn in E. injection E as <-. constructor.
  - rewrite Ho by (intros ->; rewrite slot_eqb_refl in Ex; discriminate).
    refine (rel_frame h _ (h_next h) x (a x) _ _ _ _ (Hr x)); [exact I3|..].
    + intros j o o' Hj. cbn. destruct (Z.eqb_spec (h_next h) j) as [Ej|]; [rewrite <- Ej in Hj; congruence|].
      intros Hj'. destruct (K _ _ Hj) as (q & Hq & A & B). rewrite Hq in Hj'. injection Hj' as <-. auto.
    + cbn. rewrite find_var_del. now rewrite Ex.
    + intros H. apply (i_held _ _ _ _ I) in H. congruence.
Qed.

Lemma step_good o : (forall x, act x o (a x) = Some (a' x)) -> good o.
Proof.
  unfold good. intros H. destruct o as [s|s k ps|s k|s k p|s k t kt|s k|s|p|s|t s k]; cbn [act] in H; cbn [exec].
  - (* ONull *)
    pose proof (H s) as H0. rewrite slot_eqb_refl in H0. apply ask_inv in H0 as [Hl Hs]. apply negb_true_iff in Hl.
    eexists. split; [reflexivity|]. cbn [h_next h_objs h_vars].
    match goal with |- ?A /\ _ => assert (I3 : A) by (apply inv_set_null; [exact I|exact (rel_dead h s (a s) (Hr s) Hl)]) end.
    split; [exact I3|]. intros x. specialize (H x). destruct (slot_eqb s x) eqn:Ex.
    + apply slot_eqb_eq in Ex. subst x. rewrite Hs. cbn. now rewrite slot_eqb_refl.
    + injection H as <-. refine (rel_frame h _ (h_next h) x (a x) _ _ _ _ (Hr x)); [exact I3|..].
      * intros j o o' Hj Hj'. cbn in Hj'. rewrite Hj in Hj'. injection Hj' as <-. auto.
      * cbn. rewrite find_var_del. now rewrite Ex.
      * intros E. apply (i_held _ _ _ _ I) in E. destruct (find_obj (h_objs h) (h_next h)) eqn:En; [|congruence].
        pose proof (i_next _ _ _ _ I _ _ En). lia.
  - (* ONew *)
    assert (HA : forall x, forallb (fun p => rank (p_kind p) <=? rank k) ps && (negb (tracked k) || match ps with [] => true | _ => false end) && forallb (fun p => check_at x p (a x)) ps = true).
    { intros x. specialize (H x). destruct (_ && _); [reflexivity|discriminate]. }
    pose proof (HA s) as HAs. apply andb_prop in HAs as [HAs _]. apply andb_prop in HAs as [HR HM].
    rewrite forallb_forall in HR. pose proof (H s) as H0. rewrite (HA s), slot_eqb_refl in H0.
    apply ask_inv in H0 as [Hl Hs]. apply negb_true_iff in Hl.
    apply good_new; [| | |exact Hl|exact Hs|].
    + intros p Hp. specialize (HR p Hp). lia.
    + intros p Hp x. specialize (HA x). apply andb_prop in HA as [_ HC]. rewrite forallb_forall in HC. exact (HC p Hp).
    + intros Hm. rewrite Hm in HM. cbn in HM. destruct ps; [reflexivity|discriminate].
    + intros x Hx. specialize (H x). rewrite (HA x) in H. assert (Ex : slot_eqb s x = false) by (apply slot_eqb_neq; congruence).
      rewrite Ex in H. congruence.
  - (* ONewIf *)
    pose proof (H s) as H0. rewrite slot_eqb_refl in H0. pose proof (Hr s) as Hrs. destruct (a s) as [| |k' cs] eqn:Ea; [discriminate| |]; cbn in Hrs.
    + rewrite Hrs. apply good_new; [intros p []|intros p []|reflexivity| | |].
      * now rewrite Ea.
      * congruence.
      * intros x Hx. specialize (H x). assert (Ex : slot_eqb s x = false) by (apply slot_eqb_neq; congruence). rewrite Ex in H. congruence.
    + destruct Hrs as (i & o & Hv & _). rewrite Hv. exists h. split; [reflexivity|split; [exact I|]].
      intros x. specialize (H x). destruct (slot_eqb s x) eqn:Ex.
      * apply slot_eqb_eq in Ex. subst x. apply ask_inv in H0 as [_ Hs]. rewrite Hs, <- Ea. apply Hr.
      * injection H as <-. apply Hr.
  - (* OLink *)
    assert (HA : forall x, (rank (p_kind p) <? rank k) && check_at x (V s k) (a x) && check_at x p (a x) = true).
    { intros x. specialize (H x). destruct (_ && _); [reflexivity|discriminate]. }
    assert (HC1 : forall x, check_at x (V s k) (a x) = true).
    { intros x. specialize (HA x). apply andb_prop in HA as [E _]. now apply andb_prop in E as [_ E]. }
    assert (HC2 : forall x, check_at x p (a x) = true).
    { intros x. specialize (HA x). now apply andb_prop in HA as [_ E]. }
    pose proof (HA s) as E. apply andb_prop in E as [E _]. apply andb_prop in E as [HR _].
    destruct (resolve_var s k HC1) as (e & ob & E1 & Hv & Ho & Hk & cs & Has).
    destruct (resolve_at p HC2) as (i & q & E2 & Hq & Hqk). rewrite E1, E2. cbn [bind]. rewrite HR.
    destruct (inv_incref _ _ _ _ i I) as (l & E3 & I2 & K & N); [congruence|]. rewrite E3. cbn [bind].
    destruct (K _ _ Ho) as (ob' & Ho' & A & B). rewrite Ho'. eexists. split; [reflexivity|]. cbn [h_next h_objs h_vars].
    match goal with |- ?A /\ _ => assert (I3 : A) end.
    { apply (inv_put _ _ _ [i] [] e ob' _ I2 Ho').
      - intros j. rewrite occ_app. cbn. lia.
      - intros j Hj. apply in_app_or in Hj as [Hj|[<-|[]]].
        + exact (i_kids _ _ _ _ I2 _ _ _ Ho' Hj).
        + destruct (K _ _ Hq) as (q' & Hq' & Hk' & _). exists q'. split; [exact Hq'|]. left. rewrite Hk', Hqk, A, Hk. lia. }
    split; [exact I3|]. intros x. specialize (H x). rewrite (HA x) in H.
    assert (Fp : forall j, find_obj (put_obj l e {| o_kind := o_kind ob'; o_count := o_count ob'; o_refs := o_refs ob' ++ [i] |}) j
                 = if e =? j then Some {| o_kind := o_kind ob'; o_count := o_count ob'; o_refs := o_refs ob' ++ [i] |} else find_obj l j)
      by (intros j; apply find_put; congruence).
    destruct (slot_eqb s x) eqn:Ex.
    + apply slot_eqb_eq in Ex. subst x. pose proof (Hr s) as Hrs. rewrite Has in Hrs, H. injection H as <-. cbn in Hrs |- *.
      destruct Hrs as (i' & o' & Hi' & Hoo & Hk' & Hcs). rewrite Hv in Hi'. injection Hi' as <-. rewrite Ho in Hoo. injection Hoo as <-.
      eexists e, _. split; [exact Hv|]. rewrite Fp, Z.eqb_refl. split; [reflexivity|]. cbn. split; [congruence|].
      assert (Kp : forall j w, find_obj (h_objs h) j = Some w -> exists w', find_obj (put_obj l e {| o_kind := o_kind ob'; o_count := o_count ob'; o_refs := o_refs ob' ++ [i] |}) j = Some w' /\ o_kind w' = o_kind w).
      { intros j w Hw. rewrite Fp. destruct (K _ _ Hw) as (w' & Hw' & Kw & _). destruct (Z.eqb_spec e j) as [->|]; [|eauto].
        eexists. split; [reflexivity|]. cbn. congruence. }
      rewrite <- B in Hcs. destruct (tracked k); [|exact Hcs]. apply Forall2_app.
      * refine (Forall2_mono _ _ _ _ _ Hcs). intros j c (w & Hw & Hwc). destruct (Kp _ _ Hw) as (w' & Hw' & Kw). exists w'. split; [exact Hw'|congruence].
      * constructor; [|constructor]. destruct (Kp _ _ Hq) as (w' & Hw' & Kw). exists w'. split; [exact Hw'|congruence].
    + injection H as <-. refine (rel_frame h _ e x (a x) _ _ _ _ (Hr x)); [exact I3| |reflexivity|].
      * intros j o o' Hj. cbn [h_objs]. rewrite Fp. destruct (K _ _ Hj) as (q' & Hq' & A' & B'). destruct (Z.eqb_spec e j) as [->|].
        -- intros [= <-]. cbn. split; [|congruence]. rewrite Ho in Hj. injection Hj as <-. exact A.
        -- rewrite Hq'. intros [= <-]. auto.
      * apply (only_holder s); [exact Hv|]. intros ->. now rewrite slot_eqb_refl in Ex.
  - (* OGive *)
    assert (HA : forall x, (rank kt <? rank k) && check_at x (V s k) (a x) && check_at x (V t kt) (a x) = true).
    { intros x. specialize (H x). destruct (_ && _); [reflexivity|discriminate]. }
    assert (HC1 : forall x, check_at x (V s k) (a x) = true).
    { intros x. specialize (HA x). apply andb_prop in HA as [E _]. now apply andb_prop in E as [_ E]. }
    assert (HC2 : forall x, check_at x (V t kt) (a x) = true).
    { intros x. specialize (HA x). now apply andb_prop in HA as [_ E]. }
    pose proof (HA s) as E. apply andb_prop in E as [E _]. apply andb_prop in E as [HR _].
    destruct (resolve_var s k HC1) as (e & ob & E1 & Hv & Ho & Hk & cs & Has).
    destruct (resolve_var t kt HC2) as (i & q & E2 & Hvt & Hq & Hqk & ct & Hat). rewrite E1, E2. cbn [bind]. rewrite HR, Ho.
    assert (Hst : s <> t) by (intros ->; rewrite Has in Hat; injection Hat as ->; lia).
    eexists. split; [reflexivity|]. cbn [h_next h_objs h_vars].
    match goal with |- ?A /\ _ => assert (I3 : A) end.
    { apply (inv_put _ _ _ [i] [] e ob _ (inv_take _ _ _ _ _ _ I Hvt) Ho).
      - intros j. rewrite occ_app. cbn. lia.
      - intros j Hj. apply in_app_or in Hj as [Hj|[<-|[]]].
        + exact (i_kids _ _ _ _ I _ _ _ Ho Hj).
        + exists q. split; [exact Hq|]. left. rewrite Hqk, Hk. lia. }
    split; [exact I3|].
    assert (Fp : forall j, find_obj (put_obj (h_objs h) e {| o_kind := o_kind ob; o_count := o_count ob; o_refs := o_refs ob ++ [i] |}) j
                 = if e =? j then Some {| o_kind := o_kind ob; o_count := o_count ob; o_refs := o_refs ob ++ [i] |} else find_obj (h_objs h) j)
      by (intros j; apply find_put; congruence).
    intros x. specialize (H x). rewrite (HA x) in H. destruct (slot_eqb s x) eqn:Ex.
    + apply slot_eqb_eq in Ex. subst x. pose proof (Hr s) as Hrs. rewrite Has in Hrs, H. injection H as <-. cbn in Hrs |- *.
      destruct Hrs as (i' & o' & Hi' & Ho' & Hk' & Hcs). rewrite Hv in Hi'. injection Hi' as <-. rewrite Ho in Ho'. injection Ho' as <-.
      eexists e, _. rewrite find_var_del. assert (Ets : slot_eqb t s = false) by (apply slot_eqb_neq; congruence). rewrite Ets.
      split; [exact Hv|]. rewrite Fp, Z.eqb_refl. split; [reflexivity|]. cbn. split; [congruence|].
      destruct (tracked k); [|exact Hcs]. apply Forall2_app.
      * refine (Forall2_mono _ _ _ _ _ Hcs). intros j c (w & Hw & Hwc). rewrite Fp. destruct (Z.eqb_spec e j) as [->|]; [|eauto].
        eexists. split; [reflexivity|]. cbn. congruence.
      * constructor; [|constructor]. rewrite Fp. destruct (Z.eqb_spec e i) as [->|]; [|eauto].
        eexists. split; [reflexivity|]. cbn. congruence.
    + destruct (slot_eqb t x) eqn:Et.
      * injection H as <-. cbn. rewrite find_var_del, Et. reflexivity.
      * injection H as <-. refine (rel_frame h _ e x (a x) _ _ _ _ (Hr x)); [exact I3|..].
        -- intros j o o' Hj. cbn [h_objs]. rewrite Fp. destruct (Z.eqb_spec e j) as [->|].
           ++ intros [= <-]. cbn. split; [|congruence]. rewrite Ho in Hj. injection Hj as <-. reflexivity.
           ++ rewrite Hj. intros [= <-]. auto.
        -- cbn. rewrite find_var_del. now rewrite Et.
        -- apply (only_holder s); [exact Hv|]. intros ->. now rewrite slot_eqb_refl in Ex.
  - (* OClear *)
    assert (HC1 : forall x, check_at x (V s k) (a x) = true).
    { intros x. specialize (H x). destruct (check_at x (V s k) (a x)); [reflexivity|discriminate]. }
    destruct (resolve_var s k HC1) as (e & ob & E1 & Hv & Ho & Hk & cs & Has). rewrite E1. cbn [bind]. rewrite Ho.
    assert (I2 : inv (h_next h) (put_obj (h_objs h) e {| o_kind := o_kind ob; o_count := o_count ob; o_refs := [] |}) (h_vars h) (o_refs ob)).
    { apply (inv_put _ _ _ [] (o_refs ob) e ob [] I Ho); [intros j; cbn; lia|intros j []]. }
    destruct (inv_release_all _ _ _ _ I2) as (l & E2 & I3 & K). rewrite E2. cbn [bind]. eexists. split; [reflexivity|]. cbn [h_next h_objs h_vars].
    split; [exact I3|].
    assert (Fp : forall j, find_obj (put_obj (h_objs h) e {| o_kind := o_kind ob; o_count := o_count ob; o_refs := [] |}) j
                 = if e =? j then Some {| o_kind := o_kind ob; o_count := o_count ob; o_refs := [] |} else find_obj (h_objs h) j)
      by (intros j; apply find_put; congruence).
    intros x. specialize (H x). rewrite (HC1 x) in H. destruct (slot_eqb s x) eqn:Ex.
    + apply slot_eqb_eq in Ex. subst x. injection H as <-. cbn.
      destruct (find_obj l e) as [ob'|] eqn:El; [|apply (i_held _ _ _ _ I3) in Hv; congruence].
      destruct (K _ _ El) as (w & Hw & Hwk & Hwr). rewrite Fp, Z.eqb_refl in Hw. injection Hw as <-. cbn in Hwk, Hwr.
      exists e, ob'. split; [exact Hv|]. split; [exact El|]. split; [congruence|]. rewrite Hwr. destruct (tracked k); [constructor|reflexivity].
    + injection H as <-. refine (rel_frame h _ e x (a x) _ _ _ _ (Hr x)); [exact I3| |reflexivity|].
      * intros j o o' Hj Hj'. cbn [h_objs] in Hj'. destruct (K _ _ Hj') as (w & Hw & Hwk & Hwr). rewrite Fp in Hw.
        destruct (Z.eqb_spec e j) as [->|].
        -- injection Hw as <-. cbn in Hwk. split; [|congruence]. rewrite Ho in Hj. injection Hj as <-. exact Hwk.
        -- rewrite Hj in Hw. injection Hw as <-. auto.
      * apply (only_holder s); [exact Hv|]. intros ->. now rewrite slot_eqb_refl in Ex.
  - (* ODrop *)
    pose proof (H s) as H0. rewrite slot_eqb_refl in H0. pose proof (Hr s) as Hrs. destruct (a s) as [| |k' cs] eqn:Ea; [discriminate| |]; cbn in Hrs.
    + rewrite Hrs. exists h. split; [reflexivity|split; [exact I|]]. intros x. specialize (H x). destruct (slot_eqb s x) eqn:Ex.
      * apply slot_eqb_eq in Ex. subst x. injection H0 as <-. exact Hrs.
      * injection H as <-. apply Hr.
    + destruct Hrs as (e & ob & Hv & Ho & _). rewrite Hv. injection H0 as H0.
      assert (I2 : inv (h_next h) (h_objs h) (set_var (h_vars h) s None) [e]).
      { pose proof (inv_take _ _ _ _ _ _ I Hv) as J. assert (Hd : dead (find_var (del_var (h_vars h) s) s)).
        { rewrite find_var_del, slot_eqb_refl. exact Logic.I. }
        pose proof (inv_set_null _ _ _ _ s J Hd) as J2. unfold set_var in J2 |- *.
        replace (del_var (del_var (h_vars h) s) s) with (del_var (h_vars h) s) in J2; [exact J2|].
        unfold del_var. clear. induction (h_vars h) as [|[u v] l IH]; cbn; [reflexivity|].
        destruct (slot_eqb u s) eqn:E; cbn; [exact IH|]. rewrite E. cbn. f_equal. exact IH. }
      destruct (inv_release_all _ _ _ _ I2) as (l & E2 & I3 & K). rewrite E2. cbn [bind]. eexists. split; [reflexivity|]. cbn [h_next h_objs h_vars].
      split; [exact I3|]. intros x. specialize (H x). destruct (slot_eqb s x) eqn:Ex.
      * apply slot_eqb_eq in Ex. subst x. rewrite <- H0. cbn. now rewrite slot_eqb_refl.
      * injection H as <-. refine (rel_frame h _ e x (a x) _ _ _ _ (Hr x)); [exact I3|..].
        -- intros j o o' Hj Hj'. cbn [h_objs] in Hj'. destruct (K _ _ Hj') as (w & Hw & Hwk & Hwr). rewrite Hj in Hw. injection Hw as <-. auto.
        -- cbn. rewrite find_var_del. now rewrite Ex.
        -- apply (only_holder s); [exact Hv|]. intros ->. now rewrite slot_eqb_refl in Ex.
  - (* OUse *)
    assert (HA : forall x, check_at x p (a x) = true /\ a' x = a x).
    { intros x. specialize (H x). apply ask_inv in H. exact H. }
    destruct (resolve_at p (fun x => proj1 (HA x))) as (i & q & E & _). rewrite E. cbn [bind]. exists h.
    split; [reflexivity|split; [exact I|]]. intros x. destruct (HA x) as [_ ->]. apply Hr.
  - (* OLeave *)
    pose proof (H s) as H0. rewrite slot_eqb_refl in H0. apply ask_inv in H0 as [Hl Hs]. apply negb_true_iff in Hl.
    eexists. split; [reflexivity|]. cbn [h_next h_objs h_vars].
    match goal with |- ?A /\ _ => assert (I3 : A) by (apply inv_del_dead; [exact I|exact (rel_dead h s (a s) (Hr s) Hl)]) end.
    split; [exact I3|]. intros x. specialize (H x). destruct (slot_eqb s x) eqn:Ex.
    + apply slot_eqb_eq in Ex. subst x. rewrite Hs. cbn. now rewrite find_var_del, slot_eqb_refl.
    + injection H as <-. refine (rel_frame h _ (h_next h) x (a x) _ _ _ _ (Hr x)); [exact I3|..].
      * intros j o o' Hj Hj'. cbn in Hj'. rewrite Hj in Hj'. injection Hj' as <-. auto.
      * cbn. rewrite find_var_del. now rewrite Ex.
      * intros E. apply (i_held _ _ _ _ I) in E. destruct (find_obj (h_objs h) (h_next h)) eqn:En; [|congruence].
        pose proof (i_next _ _ _ _ I _ _ En). lia.
  - (* OMove *)
    assert (HA : forall x, negb (tracked k) && negb (slot_eqb t s) && check_at x (V s k) (a x) = true).
    { intros x. specialize (H x). destruct (_ && _); [reflexivity|discriminate]. }
    assert (HC1 : forall x, check_at x (V s k) (a x) = true).
    { intros x. specialize (HA x). now apply andb_prop in HA as [_ E]. }
    pose proof (HA s) as E. apply andb_prop in E as [E _]. apply andb_prop in E as [HM Hts]. apply negb_true_iff in HM, Hts.
    destruct (resolve_var s k HC1) as (e & ob & E1 & Hv & Ho & Hk & cs & Has). rewrite E1. cbn [bind].
    assert (Hst : slot_eqb s t = false) by now rewrite slot_eqb_sym.
    pose proof (H t) as Ht. rewrite (HA t), Hst, slot_eqb_refl in Ht. apply ask_inv in Ht as [Hl Ht]. apply negb_true_iff in Hl.
    eexists. split; [reflexivity|]. cbn [h_next h_objs h_vars].
    match goal with |- ?A /\ _ => assert (I3 : A) end.
    { pose proof (inv_take _ _ _ _ _ _ I Hv) as J. apply inv_give.
      - exact J.
      - rewrite find_var_del, Hst. exact (rel_dead h t (a t) (Hr t) Hl).
      - rewrite held_del by apply I. rewrite Hv. cbn. rewrite Z.eqb_refl. pose proof (i_one _ _ _ _ I e). apply held_find in Hv. lia. }
    split; [exact I3|]. intros x. specialize (H x). rewrite (HA x) in H. destruct (slot_eqb s x) eqn:Ex.
    + injection H as <-. cbn. rewrite find_var_del. apply slot_eqb_eq in Ex. subst x. rewrite Hts, find_var_del, slot_eqb_refl. reflexivity.
    + destruct (slot_eqb t x) eqn:Et.
      * apply slot_eqb_eq in Et. subst x. rewrite Ht. cbn. rewrite slot_eqb_refl. exists e, ob.
        split; [reflexivity|split; [exact Ho|split; [exact Hk|]]]. now rewrite HM.
      * injection H as <-. refine (rel_frame h _ e x (a x) _ _ _ _ (Hr x)); [exact I3|..].
        -- intros j o o' Hj Hj'. cbn in Hj'. rewrite Hj in Hj'. injection Hj' as <-. auto.
        -- cbn. rewrite !find_var_del, Et. now rewrite Ex.
        -- apply (only_holder s); [exact Hv|]. intros ->. now rewrite slot_eqb_refl in Ex.
Qed.
End Step.

(** A memory whose counts are right and whose variables have the given states. *)
Definition state (h : heap) (a : slot -> status) : Prop :=
  inv (h_next h) (h_objs h) (h_vars h) [] /\ forall x, rel h x (a x).

Lemma run_good l : forall h a a',
  state h a -> (forall x, acts x l (a x) = Some (a' x)) -> exists h', run h l = Ok h' /\ state h' a'.
Proof.
  unfold run. induction l as [|o l IH]; intros h a a' [I Hr] H; cbn [foldM].
  - exists h. split; [reflexivity|split; [exact I|]]. intros x. specialize (H x). cbn in H. injection H as <-. apply Hr.
  - destruct (step_good h a (fun x => match act x o (a x) with Some st => st | None => Un end) I Hr o) as (h1 & E & I1 & H1).
    + intros x. specialize (H x). cbn in H. destruct (act x o (a x)); [reflexivity|discriminate].
    + rewrite E. cbn [bind]. apply (IH h1 _ a' (conj I1 H1)). intros x. specialize (H x). cbn in H.
      destruct (act x o (a x)); [exact H|discriminate].
Qed.

Lemma empty_state : state empty_heap (fun _ => Un).
Proof. split; [exact inv_empty|]. intros x. reflexivity. Qed.
