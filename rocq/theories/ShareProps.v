(** C92: the files of the probes when several processes run. *)
From Coq Require Import String ZifyBool.
From Verif Require Import Prelude ZSum RSum TypesModel GridModel GridSpec GridProof MeshProof IndexModel IndexSpec IndexProof
  BoundaryModel BoundarySpec BoundaryProof OperatorModel OperatorSpec OperatorProof BStateProof MatModel ConvModel ConvProof DeltaModel
  DeltaSpec DeltaProps ProbeModel ProbeSpec ProbeProof ProbeInterp ProbeRun ProbeUse ProbeProps ShareModel ShareSpec ShareProof.
Local Open Scope list_scope.

(** C92: if between two barriers a file is written by one process at most, or
    only emptied, then at the end it is what it would be if the processes took
    turns, whatever the order. *)
Theorem files_any_order : forall (A : Type) n (P : fprog A) d w f K, (0 < n)%Z -> (forall r, (0 <= r < n)%Z -> List.length (P r) = K) ->
  (forall j, calm f n (fphase P j)) -> fmoves n P (fstart d) w -> fdone n P w -> f_disk w f = in_turn f n P K (d f).
Proof. intros A n P d w f K. exact (done_moves n P d w f K). Qed.
Print Assumptions files_any_order.

(** C92: a process never waits for ever at a barrier. *)
Theorem barriers_proceed : forall (A : Type) n (P : fprog A) d w K, (0 < K)%nat -> (forall r, (0 <= r < n)%Z -> List.length (P r) = K) ->
  fmoves n P (fstart d) w -> fdone n P w \/ exists w', fmove n P w w'.
Proof. intros A n P d w K. exact (some_move n P d w K). Qed.
Print Assumptions barriers_proceed.

(** ** Point probes *)

Lemma steps_run m D c r calls : forall P o P1 L,
  foldM (fun so (cl : call) => let '(n, t, U, p) := cl in
    do (s', o) <- monitor m D c (probePointMonitorVec m D r (pc_field c)) (fst so) U p n t; Ok (s', (snd so ++ o)%list)) calls (P, o) = Ok (P1, L) ->
  exists st, point_steps m D c r P calls = Ok st /\ L = o ++ concat st /\ List.length st = List.length calls.
Proof.
  induction calls as [|[[[n t] U] y] cs IH]; intros P o P1 L E; cbn [foldM] in E.
  - injection E as <- <-. exists []. cbn. now rewrite app_nil_r.
  - cbn [fst snd point_steps] in *. destruct (monitor m D c _ P U y n t) as [[P' o1]|k|] eqn:Em; try discriminate. cbn [bind] in *.
    destruct (IH P' (o ++ o1) P1 L E) as (st & Es & EL & Hl). exists (o1 :: st). rewrite Es. cbn [bind concat List.length]. split; [reflexivity|].
    split; [rewrite EL, <- app_assoc; reflexivity|now rewrite Hl].
Qed.
Lemma add_file {A} path (l : list A) : forall c, fold_left (one_fact path) (map (Add path) l) (Some c) = Some (c ++ l).
Proof. induction l as [|x l IH]; intros c; cbn [map fold_left]; [now rewrite app_nil_r|]. cbn [one_fact]. rewrite String.eqb_refl, IH, <- app_assoc. reflexivity. Qed.
Lemma fphase_map {A} path (l : list (list A)) k : nth k (map (map (Add path)) l) [] = map (Add path) (nth k l []).
Proof. change (@nil (fact A)) with (map (Add path) (@nil A)) at 1. apply map_nth. Qed.
Lemma concat_firstn {A} (l : list (list A)) k : concat (firstn (S k) l) = concat (firstn k l) ++ nth k l [].
Proof. revert k. induction l as [|x l IH]; intros [|k]; cbn; try reflexivity. - now rewrite app_nil_r. - change (concat (firstn (S k) (l)) ) with (concat (firstn (S k) l)). rewrite <- app_assoc. f_equal. exact (IH k). Qed.
Lemma concat_nil_nth {A} (l : list (list A)) k : concat l = [] -> nth k l [] = [].
Proof. revert k. induction l as [|x l IH]; intros [|k] H; cbn in *; try reflexivity; apply app_eq_nil in H; [apply H|apply IH, H]. Qed.

Lemma point_done {A} n path (st : Z -> list (list A)) K r0 : (0 <= r0 < n)%Z -> (forall r, (0 <= r < n)%Z -> List.length (st r) = K) ->
  (forall r, (0 <= r < n)%Z -> r <> r0 -> concat (st r) = []) -> forall d x,
  fmoves n (fun r => point_acts path (st r)) (fstart d) x -> fdone n (fun r => point_acts path (st r)) x ->
  f_disk x path = Some (concat (st r0)) /\ forall g, g <> path -> f_disk x g = d g.
Proof.
  intros Hr HK Ho d x M F. set (P := fun r => point_acts path (st r)) in *.
  assert (Len : forall r, (0 <= r < n)%Z -> List.length (P r) = S K) by (intros r H; unfold P, point_acts; cbn; now rewrite map_length, HK).
  assert (Ph : forall k r, fphase P (S k) r = map (Add path) (nth k (st r) [])) by (intros k r; unfold fphase, P, point_acts; cbn [nth]; apply fphase_map).
  assert (Sil : forall k q a, (0 <= q < n)%Z -> q <> r0 -> In a (fphase P (S k) q) -> ~ writes_to path a).
  { intros k q a Hq N. rewrite Ph, (concat_nil_nth (st q) k) by (now apply Ho). intros []. }
  split.
  - rewrite (done_moves n P d x path (S K) ltac:(lia) Len); [|intros [|j]|exact M|exact F].
    + assert (G : forall k, in_turn path n P (S k) (d path) = Some (concat (firstn k (st r0)))).
      { induction k as [|k IH].
        - cbn [in_turn]. apply turn_trunc with (r := r0); [|exact Hr|now left]. intros q a Hq [<-|[]] _. reflexivity.
        - change (in_turn path n P (S (S k)) (d path)) with (turn path n (fphase P (S k)) (in_turn path n P (S k) (d path))). rewrite IH.
          rewrite (turn_single path n _ r0) by (assumption || (intros q a; apply Sil)). rewrite Ph, add_file, concat_firstn. reflexivity. }
      rewrite G. rewrite <- (HK r0 Hr), firstn_all. reflexivity.
    + right. intros q a Hq [<-|[]] _. reflexivity.
    + left. exists r0. intros q a. apply Sil.
  - intros g Hg.
    assert (U : forall j, untouched g n (fphase P j)).
    { intros [|j] q a Hq; [intros [<-|[]]|rewrite Ph, in_map_iff; intros (y & <- & _)]; intros [E|[z E]]; congruence. }
    rewrite (done_moves n P d x g (S K) ltac:(lia) Len); [|intros j; left; exists 0%Z; intros q a Hq _; now apply U|exact M|exact F].
    generalize (S K). induction n0 as [|k IH]; [reflexivity|]. cbn [in_turn]. rewrite turn_silent by apply U. exact IH.
Qed.

(** C92: every process empties the file of a point probe when it starts; still
    the file ends with one line per scheduled step, as in C31, and no other file
    is touched, whatever the order of the processes. *)
Theorem point_file_any_order : forall m D c loc calls sel w, mesh_setup m D -> (0 <= pc_field c < m_dim m)%Z -> pc_nmonitor c <> 0%Z ->
  (forall d, (0 <= d < m_dim m)%Z -> crd m (pc_field c) d 0 <= loc d < crd m (pc_field c) d (m_n m (pc_field c) d))%R ->
  selects (scheduled c) calls sel -> (forall n t U P, In (n, t, U, P) sel -> field_values m D (pc_field c) U P (w (n, t, U, P))) ->
  exists lines (st : Z -> list (list (R * R))),
    Forall2 (fun cl tv => fst tv = call_time cl /\ interpolant m (pc_field c) (probe_ext m (pc_field c) (w cl)) loc (snd tv)) sel lines /\
    (forall r, (0 <= r < nranks D)%Z -> exists P0, probePointInit m D r (pc_field c) loc = Ok P0 /\ point_steps m D c r P0 calls = Ok (st r)) /\
    forall path d x, fmoves (nranks D) (fun r => point_acts path (st r)) (fstart d) x -> fdone (nranks D) (fun r => point_acts path (st r)) x ->
      f_disk x path = Some lines /\ forall g, g <> path -> f_disk x g = d g.
Proof.
  intros m D c loc calls sel w Hs Hf Hn Hl Hsel Hw. destruct (point_probe_run m D c loc calls sel w Hs Hf Hn Hl Hsel Hw) as (r0 & Hr0 & Hrun).
  set (st := fun r => match (do P0 <- probePointInit m D r (pc_field c) loc; point_steps m D c r P0 calls) with Ok l => l | _ => [] end).
  assert (St : forall r, (0 <= r < nranks D)%Z -> (exists P0, probePointInit m D r (pc_field c) loc = Ok P0 /\ point_steps m D c r P0 calls = Ok (st r)) /\
     List.length (st r) = List.length calls /\ (r <> r0 -> concat (st r) = []) /\
     (r = r0 -> Forall2 (fun cl tv => fst tv = call_time cl /\ interpolant m (pc_field c) (probe_ext m (pc_field c) (w cl)) loc (snd tv)) sel (concat (st r)))).
  { intros r Hr. destruct (Hrun r Hr) as (P0 & P1 & lines & Ei & Er & El). unfold run_probe in Er. destruct (steps_run m D c r calls P0 [] P1 lines Er) as (s & Es & EL & Hlen).
    cbn [app] in EL. assert (E : st r = s) by (unfold st; rewrite Ei; cbn [bind]; now rewrite Es). rewrite E. split; [exists P0; split; assumption|]. split; [exact Hlen|].
    rewrite <- EL. split; intros X; destruct (Z.eqb_spec r r0); try contradiction; exact El. }
  exists (concat (st r0)), st. split; [apply (St r0 Hr0); reflexivity|]. split; [intros r Hr; apply (St r Hr)|]. intros path d x M F.
  apply (point_done (nranks D) path st (List.length calls) r0 Hr0); [intros r Hr; apply (St r Hr)|intros r Hr; apply (St r Hr)|exact M|exact F].
Qed.
Print Assumptions point_file_any_order.

(** C92: without a barrier between the start and the first step a process that
    starts late would empty a file that already has lines. *)
Theorem point_file_needs_barrier : forall d, exists w : fworld Z,
  let P := fun r : Z => if (r =? 0)%Z then [[Trunc "p"; Add "p" 7%Z]] else [[Trunc "p"]] in
  fmoves 2 P (fstart d) w /\ fdone 2 P w /\ f_disk w "p" = Some [].
Proof.
  intros d. eexists. cbv zeta. split; [|split].
  - eapply fmoves_snoc; [eapply fmoves_snoc; [eapply fmoves_snoc; [apply fmoves_nil|]|]|].
    + apply fmove_act with (r := 0%Z) (a := Trunc "p") (l := [Add "p" 7%Z]); [lia|reflexivity].
    + apply fmove_act with (r := 0%Z) (a := Add "p" 7%Z) (l := []); [lia|reflexivity].
    + apply fmove_act with (r := 1%Z) (a := Trunc "p") (l := []); [lia|reflexivity].
  - intros r Hr. assert (r = 0 \/ r = 1)%Z as [->| ->] by lia; split; reflexivity.
  - reflexivity.
Qed.
Print Assumptions point_file_needs_barrier.

(** ** Volume probes *)
Section Volume.
Context {A : Type} (n : Z) (Hn : (0 < n)%Z) (hdf5 sync : bool) (path : string) (grid : list A) (is : A) (steps : list (list A)).
Let P : fprog A := fun r => volume_acts hdf5 sync path r grid is steps.

Lemma volume_len : exists K, forall r, List.length (P r) = K.
Proof. eexists. intros r. unfold P, volume_acts. rewrite app_length, map_length. instantiate (1 := ((if negb hdf5 then 2 else if sync then 3 else 1) + List.length steps)%nat). destruct hdf5, sync; reflexivity. Qed.
Lemma volume_others j q a : q <> 0%Z -> In a (fphase P j q) -> a = Look path.
Proof.
  intros Hq. unfold fphase, P, volume_acts. destruct (Z.eqb_spec q 0) as [|_]; [contradiction|]. cbv zeta.
  assert (G : forall k, nth k (map (fun s : list A => @nil (fact A)) steps) [] = []).
  { intros k. revert k. induction steps as [|s t IH]; intros [|k]; cbn; auto. }
  destruct hdf5; [destruct sync|]; cbn [negb app].
  - destruct j as [|[|[|j]]]; cbn [nth]; [intros []|intros [<-|[]]; reflexivity|intros []|rewrite G; intros []].
  - destruct j as [|j]; cbn [nth]; [intros [<-|[]]; reflexivity|rewrite G; intros []].
  - destruct j as [|[|j]]; cbn [nth]; [intros []|intros []|rewrite G; intros []].
Qed.
Lemma volume_calm f j : calm f n (fphase P j).
Proof. left. exists 0%Z. intros q a _ Hq Ha. rewrite (volume_others j q a Hq Ha). intros [E|[x E]]; discriminate. Qed.
Lemma volume_in_turn f k c : in_turn f n P k c = fold_left (one_fact f) (concat (firstn k (P 0%Z))) c.
Proof.
  induction k as [|k IH]; [reflexivity|]. cbn [in_turn]. rewrite (turn_single f n _ 0%Z) by (lia || (intros q a _ Hq Ha; rewrite (volume_others k q a Hq Ha); intros [E|[x E]]; discriminate)).
  rewrite IH, concat_firstn, fold_left_app. reflexivity.
Qed.
Lemma volume_whole c : fold_left (one_fact path) (concat (P 0%Z)) c = Some (grid ++ is :: concat steps).
Proof.
  assert (G : forall l, fold_left (one_fact path) (concat (map (fun s => map (Add path) s) steps)) (Some l) = Some (l ++ concat steps)).
  { induction steps as [|s t IH]; intros l; cbn [map concat fold_left]; [now rewrite app_nil_r|]. rewrite fold_left_app, add_file, IH, <- app_assoc. reflexivity. }
  unfold P, volume_acts. cbv zeta. rewrite Z.eqb_refl. cbv iota. rewrite concat_app, fold_left_app.
  assert (E : fold_left (one_fact path) (concat (if negb hdf5 then [Trunc path :: map (Add path) grid; [Add path is]]
     else if sync then [Trunc path :: map (Add path) grid; [Look path]; [Add path is]] else [(Trunc path :: map (Add path) grid) ++ [Look path] ++ [Add path is]])) c = Some (grid ++ [is])).
  { destruct hdf5; [destruct sync|]; cbn [negb concat app]; rewrite ?app_nil_r; cbn [fold_left]; rewrite fold_left_app; cbn [one_fact]; rewrite String.eqb_refl, add_file;
      cbn [app fold_left one_fact]; rewrite String.eqb_refl; reflexivity. }
  rewrite E, G, <- app_assoc. reflexivity.
Qed.
Lemma volume_silent f a : f <> path -> In a (concat (P 0%Z)) -> ~ writes_to f a.
Proof.
  intros Hf Ha. assert (G : In a (concat (P 0%Z)) -> a = Trunc path \/ a = Look path \/ exists x, a = Add path x).
  { unfold P, volume_acts. cbv zeta. rewrite Z.eqb_refl. cbv iota. rewrite concat_app, in_app_iff. intros [H|H].
    - destruct hdf5; [destruct sync|]; cbn [negb concat app] in H; rewrite ?app_nil_r in H; cbn [In] in H; rewrite in_app_iff, in_map_iff in H; cbn [In app] in H;
        repeat (destruct H as [H|H]); subst; eauto; try (destruct H as (x & <- & _); eauto); destruct H.
    - apply in_concat in H. destruct H as (l & Hl & H). apply in_map_iff in Hl. destruct Hl as (s & <- & _). apply in_map_iff in H. destruct H as (x & <- & _). eauto. }
  destruct (G Ha) as [->|[->|[x ->]]]; intros [E|[y E]]; congruence.
Qed.
End Volume.

(** C92: the file of a volume probe ends with the sub-mesh, the index set and the
    records of the steps in order, and no other file is touched, whatever the
    order of the processes. *)
Theorem volume_file_any_order : forall (A : Type) n hdf5 sync path grid (is : A) steps d w, (0 < n)%Z ->
  let P := fun r => volume_acts hdf5 sync path r grid is steps in
  fmoves n P (fstart d) w -> fdone n P w -> f_disk w path = Some (grid ++ is :: concat steps) /\ forall g, g <> path -> f_disk w g = d g.
Proof.
  intros A n hdf5 sync path grid is steps d w Hn P M F. destruct (volume_len hdf5 sync path grid is steps) as [K HK]. fold P in HK.
  assert (E : forall f, f_disk w f = fold_left (one_fact f) (concat (P 0%Z)) (d f)).
  { intros f. rewrite (done_moves n P d w f K Hn (fun r _ => HK r) (volume_calm n hdf5 sync path grid is steps f) M F).
    unfold P. rewrite (volume_in_turn n Hn hdf5 sync path grid is steps f K (d f)). f_equal. f_equal. apply firstn_all2. rewrite (HK 0%Z). lia. }
  split; [rewrite E; apply (volume_whole hdf5 sync path grid is steps)|]. intros g Hg. rewrite E. apply all_silent. intros a. now apply volume_silent.
Qed.
Print Assumptions volume_file_any_order.

(** C92: with HDF5, every process that opens the file finds the sub-mesh in it, if
    opening a file together waits for all processes. *)
Theorem volume_file_opened : forall (A : Type) n path grid (is : A) steps d w r j f x, (0 <= r < n)%Z ->
  fmoves n (fun r => volume_acts true true path r grid is steps) (fstart d) w -> In (j, f, x) (f_seen w r) -> f = path /\ x = Some grid.
Proof.
  intros A n path grid is steps d w r j f x Hr M I. set (P := fun r => volume_acts true true path r grid is steps) in *.
  assert (G : forall w, fmoves n P (fstart d) w -> forall r j f x, (0 <= r < n)%Z -> In (j, f, x) (f_seen w r) -> f = path /\ j = 1%nat).
  { clear. induction 1 as [|w' w'' M IH S]; intros r j f x Hr I; [destruct I|]. destruct S as [q a l Hq E|q Hq Hl E All]; [|now apply (IH r j f x)].
    cbn [f_seen] in I. destruct a as [g|g y|g]; try (now apply (IH r j f x)). unfold zupd in I. destruct (Z.eqb_spec r q) as [->|]; [|now apply (IH r j f x)].
    apply in_app_iff in I. destruct I as [I|[I|[]]]; [now apply (IH q j f x)|]. injection I as <- <- <-.
    assert (Hin : In (Look g) (fphase P (f_phase w' q) q)) by (rewrite E, in_app_iff; right; now left). revert Hin. generalize (f_phase w' q). intros k.
    unfold fphase, P, volume_acts. cbv zeta. cbn [negb app]. destruct k as [|[|[|k]]]; cbn [nth].
    - destruct (q =? 0)%Z; [intros [X|X]; [discriminate|apply in_map_iff in X; destruct X as (z & X & _); discriminate]|intros []].
    - intros [X|[]]. injection X as <-. auto.
    - destruct (q =? 0)%Z; [intros [X|[]]; discriminate|intros []].
    - intros X. exfalso. destruct (nth_in_or_default k (map (fun s => if (q =? 0)%Z then map (Add path) s else []) steps) []) as [Y|Y]; [|rewrite Y in X; destruct X].
      apply in_map_iff in Y. destruct Y as (s & Y & _). rewrite <- Y in X. destruct (q =? 0)%Z; [|destruct X]. apply in_map_iff in X. destruct X as (z & X & _). discriminate. }
  destruct (G w M r j f x Hr I) as [-> ->]. split; [reflexivity|].
  rewrite (seen_moves n P d w r 1%nat path x M Hr I).
  - unfold P. rewrite (volume_in_turn n ltac:(lia) true true path grid is steps path 1 (d path)). unfold volume_acts. cbv zeta. rewrite Z.eqb_refl. cbn [negb app firstn concat].
    rewrite app_nil_r. cbn [fold_left one_fact]. rewrite String.eqb_refl, add_file. reflexivity.
  - intros i. apply (volume_calm n true true path grid is steps path i).
  - intros q a Hq. unfold fphase, P, volume_acts. cbv zeta. cbn [negb app nth]. intros [<-|[]] [E|[z E]]; discriminate.
Qed.
Print Assumptions volume_file_opened.

(** C92, violated otherwise: a process may open the file before the first process
    has made it; it finds what an earlier run left there, or nothing. *)
Theorem volume_file_opened_refuted : forall (A : Type) n path grid (is : A) steps d, (1 < n)%Z ->
  exists w, fmoves n (fun r => volume_acts true false path r grid is steps) (fstart d) w /\ f_seen w 1%Z = [(0%nat, path, d path)].
Proof.
  intros A n path grid is steps d Hn. eexists. split.
  - eapply fmoves_snoc; [apply fmoves_nil|]. apply fmove_act with (r := 1%Z) (a := Look path) (l := []); [lia|reflexivity].
  - reflexivity.
Qed.
Print Assumptions volume_file_opened_refuted.

(** Two processes: where they are. *)
Definition at_two {A} (P : fprog A) (d : string -> option (list A)) (p0 : nat) (d0 : list (fact A)) (p1 : nat) (d1 : list (fact A)) : Prop :=
  exists w, fmoves 2 P (fstart d) w /\ f_phase w 0%Z = p0 /\ f_did w 0%Z = d0 /\ f_phase w 1%Z = p1 /\ f_did w 1%Z = d1.
Lemma two_act0 {A} (P : fprog A) d p0 d0 p1 d1 a l : at_two P d p0 d0 p1 d1 -> fphase P p0 0%Z = d0 ++ a :: l -> at_two P d p0 (d0 ++ [a]) p1 d1.
Proof. intros (w & M & <- & <- & <- & <-) E. eexists. split; [eapply fmoves_snoc; [exact M|apply fmove_act with (r := 0%Z) (a := a) (l := l); [lia|exact E]]|repeat split]. Qed.
Lemma two_act1 {A} (P : fprog A) d p0 d0 p1 d1 a l : at_two P d p0 d0 p1 d1 -> fphase P p1 1%Z = d1 ++ a :: l -> at_two P d p0 d0 p1 (d1 ++ [a]).
Proof. intros (w & M & <- & <- & <- & <-) E. eexists. split; [eapply fmoves_snoc; [exact M|apply fmove_act with (r := 1%Z) (a := a) (l := l); [lia|exact E]]|repeat split]. Qed.
(** Both pass a barrier. *)
Lemma two_barrier {A} (P : fprog A) d p d0 d1 : at_two P d p d0 p d1 -> (S p < List.length (P 0%Z))%nat -> (S p < List.length (P 1%Z))%nat ->
  d0 = fphase P p 0%Z -> d1 = fphase P p 1%Z -> at_two P d (S p) [] (S p) [].
Proof.
  intros (w & M & E0 & E1 & E2 & E3) L0 L1 F0 F1.
  assert (M1 : fmove 2 P w (mkFW (f_disk w) (zupd (f_phase w) 1%Z (S (f_phase w 1%Z))) (zupd (f_did w) 1%Z []) (f_seen w))).
  { apply fmove_barrier; [lia|now rewrite E2|now rewrite E3, E2|]. intros q Hq. right. assert (q = 0 \/ q = 1)%Z as [->| ->] by lia; rewrite ?E0, ?E2; split; congruence. }
  pose proof (fmoves_snoc 2 P (fstart d) _ _ M M1) as M2. set (w1 := mkFW _ _ _ _) in *.
  assert (X : f_phase w1 0%Z = p /\ f_did w1 0%Z = d0 /\ f_phase w1 1%Z = S p) by (unfold w1; cbn; rewrite E2; auto). destruct X as (X0 & X1 & X2).
  assert (X3 : f_did w1 1%Z = []) by reflexivity.
  eexists. split; [eapply fmoves_snoc; [exact M2|apply fmove_barrier with (r := 0%Z)]|].
  - lia.
  - now rewrite X0.
  - now rewrite X1, X0.
  - intros q Hq. assert (q = 0 \/ q = 1)%Z as [->| ->] by lia; [right; rewrite X0, X1; auto|left; rewrite X0, X2; lia].
  - cbn [f_phase f_did]. unfold zupd. cbn [Z.eqb]. rewrite X0, X2, X3. auto.
Qed.

(** Two processes with a volume probe: there is an order of their actions to the
    end. *)
Example volume_case : exists w : fworld Z, let P := fun r => volume_acts true true "v" r [1; 2]%Z 3%Z [[4]%Z] in
  fmoves 2 P (fstart (fun _ => None)) w /\ fdone 2 P w /\ f_disk w "v" = Some [1; 2; 3; 4]%Z.
Proof.
  set (P := fun r => volume_acts true true "v" r [1; 2]%Z 3%Z [[4]%Z]).
  assert (X : at_two P (fun _ => None) 0 [] 0 []) by (eexists; split; [apply fmoves_nil|repeat split]).
  pose proof (two_act0 P _ _ _ _ _ (Trunc "v") [Add "v" 1; Add "v" 2]%Z X eq_refl) as X1. cbn [app] in X1.
  pose proof (two_act0 P _ _ _ _ _ (Add "v" 1%Z) [Add "v" 2%Z] X1 eq_refl) as X2. cbn [app] in X2.
  pose proof (two_act0 P _ _ _ _ _ (Add "v" 2%Z) [] X2 eq_refl) as X3. cbn [app] in X3.
  pose proof (two_barrier P _ _ _ _ X3 ltac:(cbn; lia) ltac:(cbn; lia) eq_refl eq_refl) as X4.
  pose proof (two_act1 P _ _ _ _ _ (Look "v") [] X4 eq_refl) as X5. cbn [app] in X5.
  pose proof (two_act0 P _ _ _ _ _ (Look "v") [] X5 eq_refl) as X6. cbn [app] in X6.
  pose proof (two_barrier P _ _ _ _ X6 ltac:(cbn; lia) ltac:(cbn; lia) eq_refl eq_refl) as X7.
  pose proof (two_act0 P _ _ _ _ _ (Add "v" 3%Z) [] X7 eq_refl) as X8. cbn [app] in X8.
  pose proof (two_barrier P _ _ _ _ X8 ltac:(cbn; lia) ltac:(cbn; lia) eq_refl eq_refl) as X9.
  pose proof (two_act0 P _ _ _ _ _ (Add "v" 4%Z) [] X9 eq_refl) as (w & M & E0 & E1 & E2 & E3).
  assert (F : fdone 2 P w) by (intros r Hr; assert (r = 0 \/ r = 1)%Z as [->| ->] by lia; rewrite ?E0, ?E1, ?E2, ?E3; split; reflexivity).
  exists w. cbv zeta. fold P. split; [exact M|]. split; [exact F|].
  exact (proj1 (volume_file_any_order Z 2 true true "v" [1; 2]%Z 3%Z [[4]%Z] (fun _ => None) w ltac:(lia) M F)).
Qed.

(** A point probe of two processes, the second holds the point. *)
Example point_case : exists w : fworld Z, let P := fun r => point_acts "p" (if (r =? 1)%Z then [[5]%Z; []; [6]%Z] else [[]; []; []]) in
  fmoves 2 P (fstart (fun _ => Some [9]%Z)) w /\ fdone 2 P w /\ f_disk w "p" = Some [5; 6]%Z.
Proof.
  set (P := fun r => point_acts "p" (if (r =? 1)%Z then [[5]%Z; []; [6]%Z] else [[]; []; []])).
  assert (X : at_two P (fun _ => Some [9]%Z) 0 [] 0 []) by (eexists; split; [apply fmoves_nil|repeat split]).
  pose proof (two_act1 P _ _ _ _ _ (Trunc "p") [] X eq_refl) as X1. cbn [app] in X1.
  pose proof (two_act0 P _ _ _ _ _ (Trunc "p") [] X1 eq_refl) as X2. cbn [app] in X2.
  pose proof (two_barrier P _ _ _ _ X2 ltac:(cbn; lia) ltac:(cbn; lia) eq_refl eq_refl) as X3.
  pose proof (two_act1 P _ _ _ _ _ (Add "p" 5%Z) [] X3 eq_refl) as X4. cbn [app] in X4.
  pose proof (two_barrier P _ _ _ _ X4 ltac:(cbn; lia) ltac:(cbn; lia) eq_refl eq_refl) as X5.
  pose proof (two_barrier P _ _ _ _ X5 ltac:(cbn; lia) ltac:(cbn; lia) eq_refl eq_refl) as X6.
  pose proof (two_act1 P _ _ _ _ _ (Add "p" 6%Z) [] X6 eq_refl) as (w & M & E0 & E1 & E2 & E3).
  assert (F : fdone 2 P w) by (intros r Hr; assert (r = 0 \/ r = 1)%Z as [->| ->] by lia; rewrite ?E0, ?E1, ?E2, ?E3; split; reflexivity).
  exists w. cbv zeta. fold P. split; [exact M|]. split; [exact F|].
  refine (proj1 (point_done 2 "p" (fun r => if (r =? 1)%Z then [[5]%Z; []; [6]%Z] else [[]; []; []]) 3 1 ltac:(lia) _ _ _ w M F)).
  - intros r Hr. assert (r = 0 \/ r = 1)%Z as [->| ->] by lia; reflexivity.
  - intros r Hr Hr1. assert (r = 0)%Z as -> by lia. reflexivity.
Qed.

(** A probe, a mesh and calls that [point_file_any_order] speaks about: those of
    C31. *)
Example point_file_case : let m := un_mesh false false in let D := un_dec false false in let c := ex_conf 0 in
  mesh_setup m D /\ (0 <= pc_field c < m_dim m)%Z /\ pc_nmonitor c <> 0%Z /\ selects (scheduled c) ex_calls ex_sel /\
  (forall d, (0 <= d < m_dim m)%Z -> crd m 0 d 0 <= spot (15 / 2) (7 / 2) d < crd m 0 d (m_n m 0 d))%R /\
  (forall n t U P, In (n, t, U, P) ex_sel -> field_values m D (pc_field c) U P (fun _ => 1%R)).
Proof.
  cbv zeta. rewrite un_dim. split; [apply un_setup|]. split; [cbn; lia|]. split; [discriminate|]. split; [apply ex_selects|]. split.
  - intros d Hd. assert (d = 0 \/ d = 1)%Z as [->| ->] by lia; unfold spot; cbn [Z.eqb].
    + change (m_n (un_mesh false false) 0 0)%Z with 7%Z. rewrite !un_u_crd by lia. lra.
    + change (m_n (un_mesh false false) 0 1)%Z with 8%Z. rewrite !un_v_crd by lia. lra.
  - intros n t U P H. exact (ex_values _ _ 0 n t U P H).
Qed.
