(** The programs of LifeModel, checked one variable at a time. *)
From Verif Require Import Prelude LifeModel LifeSpec LifeHeap.
Local Open Scope Z_scope.

(** * Running a list of operations on one variable *)

Lemma acts_app x l m st st1 st2 : acts x l st = Some st1 -> acts x m st1 = Some st2 -> acts x (l ++ m) st = Some st2.
Proof.
  revert st. induction l as [|o l IH]; intros st; cbn; [congruence|]. destruct (act x o st) as [st'|]; [|discriminate]. apply IH.
Qed.

Lemma acts_app_inv x l m st st2 : acts x (l ++ m) st = Some st2 -> exists st1, acts x l st = Some st1 /\ acts x m st1 = Some st2.
Proof.
  revert st. induction l as [|o l IH]; intros st; cbn; [eauto|]. destruct (act x o st) as [st'|]; [|discriminate]. apply IH.
Qed.

Lemma acts_cons x o l st st1 st2 : act x o st = Some st1 -> acts x l st1 = Some st2 -> acts x (o :: l) st = Some st2.
Proof. intros H. cbn. now rewrite H. Qed.

Lemma acts_nil x st : acts x [] st = Some st.
Proof. reflexivity. Qed.

Lemma acts_flat_same {A} x (l : list A) f st :
  (forall i, In i l -> acts x (f i) st = Some st) -> acts x (flat_map f l) st = Some st.
Proof.
  induction l as [|i l IH]; intros H; cbn; [reflexivity|].
  apply (acts_app x _ _ st st); [apply H; now left|]. apply IH. intros j Hj. apply H. now right.
Qed.

Lemma acts_loop_same x n f st : (forall i, 0 <= i < n -> acts x (f i) st = Some st) -> acts x (loop n f) st = Some st.
Proof. intros H. apply acts_flat_same. intros i Hi. apply H. apply zrange_In in Hi. lia. Qed.

Lemma acts_loop_one x n f st st' j :
  0 <= j < n -> acts x (f j) st = Some st' -> (forall i s, 0 <= i < n -> i <> j -> acts x (f i) s = Some s) ->
  acts x (loop n f) st = Some st'.
Proof.
  intros Hj Hf Ho. unfold loop. assert (E : zrange 0 n = zrange 0 j ++ j :: zrange (j + 1) n).
  { rewrite (zrange_app 0 j n) by lia. f_equal. rewrite (zrange_cons j n) by lia. reflexivity. }
  rewrite E, flat_map_app. apply (acts_app x _ _ st st).
  - apply acts_flat_same. intros i Hi. apply zrange_In in Hi. apply Ho; lia.
  - cbn [flat_map]. apply (acts_app x _ _ st st'); [exact Hf|]. apply acts_flat_same. intros i Hi. apply zrange_In in Hi. apply Ho; lia.
Qed.

Lemma acts_when x b l st : (b = true -> acts x l st = Some st) -> acts x (when b l) st = Some st.
Proof. intros H. destruct b; [exact (H eq_refl)|reflexivity]. Qed.

Lemma acts_if x (b : bool) l m st st' : acts x l st = Some st' -> acts x m st = Some st' -> acts x (if b then l else m) st = Some st'.
Proof. intros H1 H2. now destruct b. Qed.

Lemma act_kept x s k sh ps st st' : act x (ONew s k ps) st = Some st' -> act x (ONew s k (kept sh ps)) st = Some st'.
Proof.
  unfold kept. destruct (s_keep sh); [auto|]. cbn.
  destruct (forallb (fun p => rank (p_kind p) <=? rank k) ps); [|discriminate].
  destruct (tracked k); cbn; [destruct ps; [|discriminate]|]; cbn; [auto|]. destruct (forallb _ ps); [auto|discriminate].
Qed.

(** ** The approximate inverse *)

Definition bn_post (X out x : slot) (st : status) : option status :=
  if slot_eqb X x then ask (check (V X KMat) st) st
  else if slot_eqb out x then ask (negb (live st)) (Li KMat [])
  else if slot_eqb Lright x || slot_eqb Ltemp x then match st with Un => Some Un | _ => None end
  else Some st.

Definition bn_local (x : slot) : bool := slot_eqb Lright x || slot_eqb Ltemp x.

Lemma acts_flat_dead {A} x (l : list A) f st :
  live st = false -> (forall i s, In i l -> live s = false -> exists s', acts x (f i) s = Some s' /\ live s' = false) ->
  exists s', acts x (flat_map f l) st = Some s' /\ live s' = false.
Proof.
  revert st. induction l as [|i l IH]; intros st Hd H; cbn; [eauto|].
  destruct (H i st (or_introl eq_refl) Hd) as (s1 & E1 & D1). destruct (IH s1 D1) as (s2 & E2 & D2).
  - intros j s Hj Hs. apply H; [now right|exact Hs].
  - exists s2. split; [exact (acts_app _ _ _ _ _ _ E1 E2)|exact D2].
Qed.

Ltac slots := rewrite ?slot_eqb_refl; repeat match goal with H : slot_eqb _ _ = _ |- _ => rewrite H end.

Section Bn.
Variables (sh : shape) (X out : slot).
Hypothesis (HXo : slot_eqb X out = false) (HXl : bn_local X = false) (Hol : bn_local out = false).

Lemma bn_slots : slot_eqb Lright X = false /\ slot_eqb Ltemp X = false /\ slot_eqb X Lright = false /\ slot_eqb X Ltemp = false /\
  slot_eqb Lright out = false /\ slot_eqb Ltemp out = false /\ slot_eqb out Lright = false /\ slot_eqb out Ltemp = false /\ slot_eqb out X = false.
Proof.
  unfold bn_local in *. apply orb_false_elim in HXl as [A B], Hol as [C D].
  rewrite (slot_eqb_sym X Lright), (slot_eqb_sym X Ltemp), (slot_eqb_sym out Lright), (slot_eqb_sym out Ltemp), (slot_eqb_sym out X). auto 12.
Qed.

(** The term of the series, for a variable other than the scratch ones. *)
Lemma bn_term_other term x st :
  bn_local x = false -> (slot_eqb X x = true -> check (V X KMat) st = true) -> acts x (bn_term sh X term) st = Some st.
Proof.
  intros Hl Hc. unfold bn_local in Hl. apply orb_false_elim in Hl as [A B]. unfold bn_term.
  apply (acts_app x _ _ st st).
  - apply (acts_cons x _ _ st st); [|reflexivity]. apply act_kept. cbn. unfold check_at. cbn [p_slot V].
    destruct (slot_eqb X x); [rewrite (Hc eq_refl)|]; cbn; now rewrite A.
  - apply acts_flat_same. intros _ _. apply (acts_cons x _ _ st st); [|apply (acts_cons x _ _ st st)].
    + apply act_kept. cbn. unfold check_at. cbn [p_slot V]. rewrite A. destruct (slot_eqb X x); [rewrite (Hc eq_refl)|]; cbn; now rewrite B.
    + cbn. now rewrite A.
    + apply (acts_cons x _ _ st st); [|reflexivity]. cbn. unfold check_at. cbn [p_slot V]. rewrite A, B. reflexivity.
Qed.

Lemma bn_term_temp term : acts Ltemp (bn_term sh X term) Un = Some Un.
Proof.
  destruct bn_slots as (S1 & S2 & S3 & S4 & _). unfold bn_term. apply (acts_app _ _ _ Un Un).
  - apply (acts_cons _ _ _ Un Un); [|reflexivity]. apply act_kept. cbn. unfold check_at. cbn [p_slot V]. rewrite S4. reflexivity.
  - apply acts_flat_same. intros _ _. apply (acts_cons _ _ _ Un (Li KMat [])); [|reflexivity].
    apply act_kept. cbn [act forallb]. unfold check_at. cbn [p_slot V]. rewrite S4. reflexivity.
Qed.

Lemma bn_term_right term st : live st = false -> acts Lright (bn_term sh X term) st = Some (Li KMat []).
Proof.
  intros Hd. destruct bn_slots as (S1 & S2 & S3 & S4 & _). unfold bn_term. apply (acts_app _ _ _ st (Li KMat [])).
  - apply (acts_cons _ _ _ st (Li KMat [])); [|reflexivity]. apply act_kept. cbn [act forallb]. unfold check_at. cbn [p_slot V].
    rewrite S3. cbn. now rewrite Hd.
  - apply acts_flat_same. intros _ _. apply (acts_cons _ _ _ (Li KMat []) (Li KMat [])); [|reflexivity].
    apply act_kept. cbn [act forallb]. unfold check_at. cbn [p_slot V]. rewrite S3. reflexivity.
Qed.

Lemma bnhead_acts n x st st' :
  bn_post X out x st = Some st' -> acts x (create_bnhead sh X n out) st = Some st'.
Proof.
  destruct bn_slots as (S1 & S2 & S3 & S4 & S5 & S6 & S7 & S8 & S9). unfold bn_post, create_bnhead.
  destruct (slot_eqb X x) eqn:EX; [|destruct (slot_eqb out x) eqn:Eo; [|destruct (slot_eqb Lright x || slot_eqb Ltemp x) eqn:El]].
  - apply slot_eqb_eq in EX. subst x. intros H. apply ask_inv in H as [Hc ->].
    apply (acts_app _ _ _ st st).
    + apply (acts_cons _ _ _ st st); [|reflexivity]. apply act_kept. cbn [act forallb]. unfold check_at. cbn [p_slot V].
      rewrite slot_eqb_refl, Hc, S9. reflexivity.
    + apply acts_if; [reflexivity|]. apply (acts_app _ _ _ st st).
      * apply acts_flat_same. intros term _. apply (acts_app _ _ _ st st); [apply bn_term_other; auto|].
        cbn. unfold check_at. cbn [p_slot V]. now rewrite S9, S1.
      * cbn. now rewrite S1, S2.
  - apply slot_eqb_eq in Eo. subst x. intros H. apply ask_inv in H as [Hd ->]. apply negb_true_iff in Hd.
    apply (acts_app _ _ _ st (Li KMat [])).
    + apply (acts_cons _ _ _ st (Li KMat [])); [|reflexivity]. apply act_kept. cbn [act forallb]. unfold check_at. cbn [p_slot V].
      rewrite HXo, slot_eqb_refl, Hd. reflexivity.
    + apply acts_if; [reflexivity|]. apply (acts_app _ _ _ (Li KMat []) (Li KMat [])).
      * apply acts_flat_same. intros term _. apply (acts_app _ _ _ (Li KMat []) (Li KMat [])); [apply bn_term_other; [auto|congruence]|].
        cbn. unfold check_at. cbn [p_slot V]. now rewrite slot_eqb_refl, S5.
      * cbn. now rewrite S5, S6.
  - intros H. destruct st; try discriminate. injection H as <-.
    apply (acts_app _ _ _ Un Un).
    + apply (acts_cons _ _ _ Un Un); [|reflexivity]. apply act_kept. cbn [act forallb]. unfold check_at. cbn [p_slot V].
      rewrite EX, Eo. reflexivity.
    + apply acts_if; [reflexivity|]. destruct (slot_eqb Lright x) eqn:Er.
      * apply slot_eqb_eq in Er. subst x.
        destruct (acts_flat_dead Lright (zrange 2 (n + 1)) (fun term => bn_term sh X term ++ [OUse (V out KMat); ODrop Lright]) Un eq_refl)
          as (s1 & E1 & D1).
        { intros i s _ Hs. exists Nu. split; [|reflexivity]. apply (acts_app _ _ _ s (Li KMat [])); [now apply bn_term_right|].
          cbn [acts act]. unfold check_at. cbn [p_slot V]. rewrite Eo. reflexivity. }
        apply (acts_app _ _ _ _ s1 _ E1). cbn [acts act]. rewrite slot_eqb_refl, D1. reflexivity.
      * cbn in El. pose proof El as Et. apply slot_eqb_eq in Et. subst x. apply (acts_app _ _ _ Un Un); [|reflexivity].
        apply acts_flat_same. intros term _. apply (acts_app _ _ _ Un Un); [apply bn_term_temp|].
        cbn [acts act]. unfold check_at. cbn [p_slot V]. rewrite Eo. reflexivity.
  - intros [= ->]. pose proof El as Hl. apply orb_false_elim in El as [Er Et]. apply (acts_app _ _ _ st' st').
    + apply (acts_cons _ _ _ st' st'); [|reflexivity]. apply act_kept. cbn [act forallb]. unfold check_at. cbn [p_slot V].
      rewrite EX, Eo. reflexivity.
    + apply acts_if; [reflexivity|]. apply (acts_app _ _ _ st' st').
      * apply acts_flat_same. intros term _. apply (acts_app _ _ _ st' st'); [apply bn_term_other; [exact Hl|congruence]|].
        cbn [acts act]. unfold check_at. cbn [p_slot V]. now rewrite Eo, Er.
      * cbn [acts act]. now rewrite Er, Et.
Qed.
End Bn.

(** * What the variables hold while a solver runs *)

Definition within (i n : Z) : bool := (0 <=? i) && (i <? n).
Definition on (b : bool) (k : kind) : status := if b then Li k [] else Un.
(** A KSP holds its matrix twice: the operator and the one of the preconditioner. *)
Definition ksp_of (b : bool) : status := if b then Li KKsp [KMat; KMat] else Nu.
Definition has_bodies (a : app) : bool := match a with NavierStokes => false | _ => true end.
Definition is_coupled (a : app) : bool := match a with Coupled => true | _ => false end.
Definition is_decoupled (a : app) : bool := match a with Decoupled | Moving => true | _ => false end.
Definition is_moving (a : app) : bool := match a with Moving => true | _ => false end.
Definition mesh_kids (dim : Z) : list kind := [KDm; KPack] ++ map (fun _ => KDm) (zrange 0 dim).

(** [d i]: probe i has allocated the vector it accumulates into. *)
Definition table (a : app) (sh : shape) (d : Z -> bool) (x : slot) : status :=
  match x with
  | SdP | Sbc1 | Srhs1 | Srhs2 | SsolU | SsolP => Li KVec []
  | Sconv i => on (within i (s_conv sh)) KVec
  | Sdiff i => on (within i (s_diff sh)) KVec
  | SA | SDBNG | SBNG | SN | SG | SD | SDcorr | SL | SLcorr => Li KMat []
  | SvKsp => ksp_of (s_kspv sh)
  | SpKsp => ksp_of (s_kspp sh)
  | Ssol => Li KSol []
  | Sbc => Li KBc []
  | Smesh => Li KMesh (mesh_kids (s_dim sh))
  | SsolversV => Li KView []
  | SpView i => match nthZ (s_probes sh) i with Some _ => Li KView [] | None => Un end
  | SpIsP i | SpIsN i => match nthZ (s_probes sh) i with Some (PVolume _ _) => Li KIs [] | _ => Un end
  | SpDvec i => match nthZ (s_probes sh) i with Some (PVolume _ _) => if d i then Li KVec [] else Nu | _ => Un end
  | SpSvec i => match nthZ (s_probes sh) i with Some (PPoint _) => Li KVec [] | _ => Un end
  | SP => on (is_coupled a) KVec
  | SisDE i => on (is_coupled a && within i 2) KIs
  | SforcesV => on (has_bodies a) KView
  | SbDa i => on (has_bodies a && within i (s_bodies sh)) KDm
  | SbPack => on (has_bodies a) KPack
  | SH | SE | SEBNH | SBNH => on (is_decoupled a) KMat
  | Sf | Sdf | Srhsf => on (is_decoupled a) KVec
  | SfKsp => if is_decoupled a then ksp_of (s_kspf sh) else Un
  | SUB => on (is_moving a) KVec
  | _ => Un
  end.

Definition fields_ok (dim : Z) (ps : list pshape) : Prop :=
  forall i p, nthZ ps i = Some p -> 0 <= match p with PVolume f _ => f | PPoint f => f end < dim \/ match p with PVolume f _ => f | PPoint f => f end = 3.

Lemma field_cases dim ps i p : dim = 2 \/ dim = 3 -> fields_ok dim ps -> nthZ ps i = Some p ->
  let f := match p with PVolume f _ => f | PPoint f => f end in f = 0 \/ f = 1 \/ f = 3 \/ (f = 2 /\ dim = 3).
Proof. intros Hd H E. specialize (H i p E). cbn in *. destruct p; lia. Qed.

(** Evaluating a piece of a program on one variable. *)
#[global] Arguments Z.eqb !x !y.
Ltac leaf :=
  cbn; unfold ask, check_at, check, da; cbn;
  repeat (match goal with
          | |- context [?u =? ?v] => destruct (Z.eqb_spec u v); try (subst; cbn); try lia; try congruence
          end);
  try reflexivity.

Ltac hd t := lazymatch t with ?f _ => hd f | _ => t end.

Ltac field_values :=
  match goal with
  | H : ?f = 0 \/ ?f = 1 \/ ?f = 3 \/ (?f = 2 /\ _) |- _ =>
      let E := fresh in destruct H as [H|[H|[H|[H E]]]]; [| | |try discriminate E; clear E]; rewrite ?H in *; clear H
  | _ => idtac
  end.
Ltac probe_cases :=
  match goal with
  | Hd : ?dim = 2 \/ ?dim = 3, Hf : fields_ok ?dim ?ps |- context [nthZ ?ps ?i] =>
      let E := fresh "E" in let Hc := fresh "Hc" in
      destruct (nthZ ps i) as [[?f ?sum|?f]|] eqn:E;
      [pose proof (field_cases _ _ _ _ Hd Hf E) as Hc; cbn in Hc|pose proof (field_cases _ _ _ _ Hd Hf E) as Hc; cbn in Hc|]; field_values
  end.

Ltac piece :=
  lazymatch goal with
  | |- acts _ (create_bnhead _ _ _ _) _ = _ => apply bnhead_acts; [reflexivity|reflexivity|reflexivity|leaf]
  | |- acts _ [] _ = _ => apply acts_nil
  | |- acts _ (_ ++ _) _ = _ => eapply acts_app; [solve [piece]|piece]
  | |- acts _ (ONew _ _ (kept _ _) :: _) _ = _ => eapply acts_cons; [apply act_kept; solve [leaf]|piece]
  | |- acts ?x (?o :: ?l) ?st = _ =>
      let r := eval cbv in (acts x (o :: l) st) in
      lazymatch r with
      | Some ?v => exact (@eq_refl (option status) (Some v))
      | _ => eapply acts_cons; [solve [leaf]|piece]
      end
  | |- acts _ (when ?b ?l) _ = _ =>
      let b' := eval vm_compute in b in
      lazymatch b' with
      | true => change (when b l) with l; piece
      | false => change (when b l) with (@nil op); piece
      | _ => lazymatch goal with
             | H : b = true |- _ => rewrite H; change (when true l) with l; piece
             | _ => apply acts_when; let Hb := fresh "Hb" in intros Hb; piece
             end
      end
  | |- acts ?x (loop ?n ?f) _ = _ =>
      first [ apply acts_loop_same; let i := fresh "i" in let Hi := fresh "Hi" in intros i Hi; cbv beta; solve [piece]
            | let n' := eval vm_compute in n in
              lazymatch n' with
              | Zpos _ => let z := eval vm_compute in (zrange 0 n) in unfold loop; change (zrange 0 n) with z; cbn [flat_map]; piece
              | _ => lazymatch x with
                     | ?C ?j => eapply (acts_loop_one _ _ _ _ _ j);
                         [unfold nprobes; cbn [s_probes]; lia|cbv beta; solve [piece]
                         |let i := fresh "i" in let Hi := fresh "Hi" in let s := fresh "s" in intros i s Hi ?; cbv beta; solve [piece]]
                     end
              end ]
  | |- acts _ (if ?b then ?l else ?m) _ = _ =>
      let b' := eval vm_compute in b in
      lazymatch b' with
      | true => change (if b then l else m) with l; piece
      | false => change (if b then l else m) with m; piece
      | _ => apply acts_if; [solve [piece]|piece]
      end
  | |- acts _ (match nthZ ?ps ?i with _ => _ end) _ = _ =>
      lazymatch goal with
      | E : nthZ ps i = _ |- _ => rewrite E; cbv beta iota; piece
      | _ => probe_cases; cbv beta iota; piece
      end
  | |- acts _ (flat_map ?f ?l) _ = _ => let z := eval vm_compute in l in change l with z; cbn [flat_map]; piece
  | |- acts _ ?l _ = _ => let h := hd l in unfold h; cbv beta iota; cbn [s_dim s_conv s_diff s_bn s_kspv s_kspp s_kspf s_root s_restart s_probes s_bodies e_save e_restart e_missing]; piece
  end.

Definition the_shape dim conv diff bn keep kv kp kf root restart ps nb : shape :=
  {| s_dim := dim; s_conv := conv; s_diff := diff; s_bn := bn; s_keep := keep; s_kspv := kv; s_kspp := kp; s_kspf := kf;
     s_root := root; s_restart := restart; s_probes := ps; s_bodies := nb |}.

Lemma within_true i n : within i n = true -> 0 <= i < n.
Proof. unfold within. lia. Qed.
Lemma within_false i n : within i n = false -> ~ (0 <= i < n).
Proof. unfold within. lia. Qed.

(** The index of an indexed variable. *)
Ltac range_of i n :=
  let E := fresh "E" in destruct (within i n) eqn:E; [apply within_true in E|apply within_false in E].
Ltac small i :=
  destruct (Z.eq_dec i 0) as [->|?]; [|destruct (Z.eq_dec i 1) as [->|?]; [|destruct (Z.eq_dec i 2) as [->|?]; [|destruct (Z.eq_dec i 3) as [->|?]]]].
Ltac probe_of ps i :=
  match goal with
  | Hd : ?dim = 2 \/ ?dim = 3, Hf : fields_ok ?dim ps |- _ =>
      let E := fresh "E" in let Hc := fresh "Hc" in
      destruct (nthZ ps i) as [[?f ?sum|?f]|] eqn:E;
      [pose proof (field_cases _ _ _ _ Hd Hf E) as Hc; cbn in Hc|pose proof (field_cases _ _ _ _ Hd Hf E) as Hc; cbn in Hc|]; field_values;
      try pose proof (nthZ_Some_range _ _ _ E)
  | _ => destruct (nthZ ps i) as [[? ?|?]|]
  end.

Ltac prepare conv diff kv kp kf ps nb :=
  lazymatch goal with
  | |- acts (Sconv ?i) _ _ = _ => range_of i conv
  | |- acts (Sdiff ?i) _ _ = _ => range_of i diff
  | |- acts (SbDa ?i) _ _ = _ => range_of i nb
  | |- acts (Lbacc ?i) _ _ = _ => range_of i nb
  | |- acts (SisDE ?i) _ _ = _ => range_of i 2; [destruct (Z.eq_dec i 0) as [->|?]; [|replace i with 1 in * by lia]|]
  | |- acts (SmDa ?i) _ _ = _ => small i
  | |- acts (Sq ?i) _ _ = _ => small i
  | |- acts (Lacc ?i) _ _ = _ => small i
  | |- acts (LGH ?i) _ _ = _ => small i
  | |- acts (LDE ?i) _ _ = _ => small i
  | |- acts (SpView ?i) _ _ = _ => probe_of ps i
  | |- acts (SpIsP ?i) _ _ = _ => probe_of ps i
  | |- acts (SpIsN ?i) _ _ = _ => probe_of ps i
  | |- acts (SpDvec ?i) _ _ = _ => probe_of ps i
  | |- acts (SpSvec ?i) _ _ = _ => probe_of ps i
  | |- acts SvKsp _ _ = _ => destruct kv
  | |- acts SpKsp _ _ = _ => destruct kp
  | |- acts SfKsp _ _ = _ => destruct kf
  | _ => idtac
  end.
Definition after (a : app) (sh : shape) (d : Z -> bool) (x : slot) : status :=
  match table a sh d x with Li _ _ => Nu | s => s end.

Definition sums (sh : shape) (i : Z) : bool := match nthZ (s_probes sh) i with Some (PVolume _ sum) => sum | _ => false end.
Definition grown (sh : shape) (e : event) (d : Z -> bool) (i : Z) : bool := d i || (e_due e i && sums sh i).

(** From one assignment of states to another. *)
Definition tr (P : slot -> status) (l : list op) (Q : slot -> status) : Prop := forall x, acts x l (P x) = Some (Q x).

Lemma tr_app P Q R l m : tr P l Q -> tr Q m R -> tr P (l ++ m) R.
Proof. intros H1 H2 x. exact (acts_app x l m _ _ _ (H1 x) (H2 x)). Qed.
Lemma tr_nil P : tr P [] P.
Proof. intros x. reflexivity. Qed.
Lemma tr_when P b l : tr P l P -> tr P (when b l) P.
Proof. intros H. destruct b; [exact H|apply tr_nil]. Qed.
Lemma tr_ext P P' Q Q' l : (forall x, P x = P' x) -> (forall x, Q x = Q' x) -> tr P l Q -> tr P' l Q'.
Proof. intros HP HQ H x. rewrite <- HP, <- HQ. apply H. Qed.
Lemma tr_if P Q (b : bool) l m : tr P l Q -> tr P m Q -> tr P (if b then l else m) Q.
Proof. now destruct b. Qed.

(** The variables of the immersed-boundary solvers, and the stage of the
    initialisation at which the others get their value. *)
Definition ib_slot (x : slot) : bool :=
  match x with
  | SP | SisDE _ | SforcesV | SbDa _ | SbPack | SH | SE | SEBNH | SBNH | Sf | Sdf | Srhsf | SfKsp | SUB => true
  | _ => false
  end.
Definition born (x : slot) : Z :=
  match x with
  | Smesh | Sbc | Ssol | SsolU | SsolP | SvKsp | SpKsp => 1
  | SA | SDBNG | SBNG | SN | SG | SD | SDcorr | SL | SLcorr => 2
  | SdP | Sbc1 | Srhs1 | Srhs2 | Sconv _ | Sdiff _ => 3
  | _ => 4
  end.
Definition unborn (x : slot) : status := match x with Smesh | Sbc | Ssol | SsolU | SsolP | SvKsp | SpKsp => Nu | _ => Un end.
(** Before its matrix is set. *)
Definition bare (x : slot) (st : status) : status :=
  match x, st with SvKsp, Li k _ | SpKsp, Li k _ => Li k [] | _, _ => st end.
Definition stage (n : Z) (g : slot -> status) (sh : shape) (d : Z -> bool) (x : slot) : status :=
  if ib_slot x then g x else if born x <=? n then (if 4 <=? n then table NavierStokes sh d x else bare x (table NavierStokes sh d x)) else unborn x.

Lemma stage_table a sh d x : stage 4 (table a sh d) sh d x = table a sh d x.
Proof. destruct x; reflexivity. Qed.

Ltac tables :=
  unfold stage, after, table, the_shape, unborn, born, bare; cbn [ib_slot Z.leb Z.compare Pos.compare Pos.compare_cont]; cbn [s_dim s_conv s_diff s_bn s_kspv s_kspp s_kspf s_root s_restart s_probes s_bodies
    has_bodies is_coupled is_decoupled is_moving andb].


Ltac slotwise dim conv diff kv kp kf ps nb :=
  let x := fresh "x" in intros x; destruct x; tables;
  lazymatch goal with |- acts Smesh _ _ = _ => try (is_var dim; generalize (mesh_kids dim); intros ?kids) | _ => idtac end;
  prepare conv diff kv kp kf ps nb; cbn [ksp_of on]; piece.

