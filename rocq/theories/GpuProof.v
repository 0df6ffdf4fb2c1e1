(** Proofs about the GPU linear solvers. *)
From Coq Require Import String Ascii ZifyBool.
From Verif Require Import Prelude ZSum TypesModel ConfigModel GpuModel.
Local Open Scope string_scope.
Local Open Scope list_scope.

Lemma upd_same {A} (h : Z -> A) r x : upd h r x r = x.
Proof. unfold upd. now rewrite Z.eqb_refl. Qed.
Lemma upd_other {A} (h : Z -> A) r x q : q <> r -> upd h r x q = h q.
Proof. intros H. unfold upd. destruct (Z.eqb_spec q r); [contradiction|reflexivity]. Qed.
Lemma put_same fs f c : put fs f c f = c.
Proof. unfold put. now rewrite String.eqb_refl. Qed.
Lemma put_other fs f c g : g <> f -> put fs f c g = fs g.
Proof. intros H. unfold put. destruct (String.eqb_spec g f); [contradiction|reflexivity]. Qed.

Lemma done_perform a r w : w_done (perform a r w) = upd (w_done w) r (S (w_done w r)).
Proof. now destruct a. Qed.

(** * The path of the factory *)
Fixpoint has_slash (s : string) : bool := match s with "" => false | String c t => (Ascii.eqb c "/" || has_slash t)%bool end.
Lemma slash_app a b : has_slash (a ++ String "/" b) = true.
Proof. induction a as [|c a IH]; cbn [String.append has_slash]; [reflexivity|]. rewrite IH. apply Bool.orb_true_r. Qed.
Lemma factory_path amgx load name y nm path : createLinSolver amgx load name y = Ok (Some (AmgX nm path)) -> path = "None" \/ has_slash path = true.
Proof.
  unfold createLinSolver. intros H.
  apply bind_ok_inv in H as (ps & _ & H). apply bind_ok_inv in H as (p1 & _ & H). apply bind_ok_inv in H as (ty & _ & H). apply bind_ok_inv in H as (co & _ & H).
  apply bind_ok_inv in H as (p & Hp & H).
  assert (E : p = path).
  { destruct (String.eqb (as_string_or ty "CPU") "CPU").
    - unfold ctor, ksp_init in H. destruct (String.eqb p "None" || load p)%bool; discriminate.
    - destruct (String.eqb (as_string_or ty "CPU") "GPU"); [|discriminate]. destruct amgx; [|discriminate]. now injection H as _ ->. }
  subst p. set (config := as_string_or co "None") in *.
  destruct (is_absolute config) eqn:Ea; cbn [negb andb] in Hp.
  - injection Hp as <-. right. unfold is_absolute in Ea. destruct config as [|c t]; [discriminate|]. cbn [has_slash]. now rewrite Ea.
  - destruct (String.eqb_spec config "None") as [E|N]; cbn [negb] in Hp.
    + injection Hp as <-. now left.
    + apply bind_ok_inv in Hp as (d & _ & Hp). apply bind_ok_inv in Hp as (dir & _ & Hp). injection Hp as <-. right. apply slash_app.
Qed.
Lemma slash_not_tmp path : has_slash path = true -> path <> tmp_config.
Proof. intros H ->. discriminate. Qed.

(** * A file of the user *)
Section Own.
Variables (sync : bool) (path : string) (n : Z) (fs : string -> option string).
Hypothesis Hn : path <> "None".
Hypothesis Ht : path <> tmp_config.
Lemma own_prog : amgx_init sync path = Load path :: (if sync then [Meet] else []).
Proof.
  unfold amgx_init. destruct (String.eqb_spec path "None"); [contradiction|]. destruct (String.eqb_spec path tmp_config); [contradiction|]. cbn. now rewrite app_nil_r.
Qed.
Lemma own_inv w : moves n (amgx_init sync path) (before fs) w ->
  w_files w = fs /\ forall r, w_read w r = match w_done w r with O => [] | S _ => [fs path] end.
Proof.
  rewrite own_prog. induction 1 as [|w w' _ [F I] M]; [split; reflexivity|]. destruct M as [r a Hr Ha Hm].
  rewrite done_perform. destruct (w_done w r) as [|k] eqn:E.
  - injection Ha as <-. cbn [perform w_files w_read]. split; [exact F|]. intros q. destruct (Z.eq_dec q r) as [->|N].
    + rewrite !upd_same. rewrite I, E, F. reflexivity.
    + rewrite !upd_other by exact N. apply I.
  - cbn [nth_error] in Ha. assert (A : a = Meet) by (destruct sync; [destruct k as [|[|]]; [now injection Ha as <-|discriminate|discriminate]|destruct k; discriminate]). subst a.
    cbn [perform w_files w_read]. split; [exact F|]. intros q. rewrite I. destruct (Z.eq_dec q r) as [->|N]; [now rewrite upd_same, E|now rewrite upd_other by exact N].
Qed.
End Own.

(** * No file, processes that wait for each other *)
Section Sync.
Variables (n : Z) (fs : string -> option string).
Let P := [Create tmp_config; Load tmp_config; Meet; Remove tmp_config].
Definition sync_inv (w : world) : Prop :=
  (forall g, g <> tmp_config -> w_files w g = fs g) /\
  (forall r, w_read w r = match w_done w r with O | 1%nat => [] | _ => [Some ""] end) /\
  (forall r, (w_done w r <= 4)%nat) /\
  ((forall r, (0 <= r < n)%Z -> (w_done w r <= 2)%nat) /\ (forall r, (0 <= r < n)%Z -> (1 <= w_done w r)%nat -> w_files w tmp_config = Some "")
   \/ (forall r, (0 <= r < n)%Z -> (2 <= w_done w r)%nat) /\ (forall r, (0 <= r < n)%Z -> w_done w r = 4%nat -> w_files w tmp_config = None)).
Lemma sync_ok w : moves n (amgx_init true "None") (before fs) w -> sync_inv w.
Proof.
  change (amgx_init true "None") with P. induction 1 as [|w w' _ I M].
  - split; [reflexivity|]. split; [reflexivity|]. split; [cbn; lia|]. left. cbn. split; [lia|]. intros r _ H. lia.
  - unfold sync_inv in *. destruct I as (F & G & L & C). destruct M as [r a Hr Ha Hm].
    assert (D : forall q, w_done (perform a r w) q = if (q =? r)%Z then S (w_done w r) else w_done w q) by (intros q; now rewrite done_perform).
    assert (K : (w_done w r < 4)%nat) by (apply nth_error_Some with (l := P); rewrite Ha; discriminate).
    assert (L' : forall q, (w_done (perform a r w) q <= 4)%nat) by (intros q; rewrite D; specialize (L q); destruct (q =? r)%Z; lia).
    destruct (w_done w r) as [|[|[|[|k]]]] eqn:E; [| | | |lia]; injection Ha as <-; cbn [perform w_files w_read w_done] in *.
    + split; [intros g Hg; rewrite put_other by exact Hg; auto|]. split.
      { intros q. rewrite G. destruct (Z.eq_dec q r) as [->|N]; [now rewrite upd_same, E|now rewrite upd_other by exact N]. }
      split; [exact L'|]. left. destruct C as [[C1 C2]|[C1 C2]]; [|specialize (C1 r Hr); lia]. split.
      * intros q Hq. rewrite D. specialize (C1 q Hq). destruct (q =? r)%Z; lia.
      * intros q Hq _. apply put_same.
    + split; [exact F|]. destruct C as [[C1 C2]|[C1 C2]]; [|specialize (C1 r Hr); lia]. assert (FS : w_files w tmp_config = Some "") by (apply (C2 r Hr); lia). split.
      { intros q. destruct (Z.eq_dec q r) as [->|N]; [rewrite !upd_same, G, E, FS; reflexivity|rewrite !upd_other by exact N; apply G]. }
      split; [exact L'|]. left. split.
      * intros q Hq. rewrite D. specialize (C1 q Hq). destruct (q =? r)%Z; lia.
      * intros q Hq _. exact FS.
    + assert (A : forall q, (0 <= q < n)%Z -> (2 <= w_done w q)%nat) by (intros q Hq; specialize (Hm eq_refl q Hq); lia).
      split; [exact F|]. split.
      { intros q. rewrite G. destruct (Z.eq_dec q r) as [->|N]; [now rewrite upd_same, E|now rewrite upd_other by exact N]. }
      split; [exact L'|]. right. split.
      * intros q Hq. rewrite D. specialize (A q Hq). destruct (q =? r)%Z; lia.
      * intros q Hq. rewrite D. destruct (q =? r)%Z; [lia|]. intros E4. destruct C as [[C1 C2]|[C1 C2]]; [specialize (C1 q Hq); lia|apply (C2 q Hq E4)].
    + destruct C as [[C1 C2]|[C1 C2]]; [specialize (C1 r Hr); lia|]. split; [intros g Hg; rewrite put_other by exact Hg; auto|]. split.
      { intros q. rewrite G. destruct (Z.eq_dec q r) as [->|N]; [now rewrite upd_same, E|now rewrite upd_other by exact N]. }
      split; [exact L'|]. right. split.
      * intros q Hq. rewrite D. specialize (C1 q Hq). destruct (q =? r)%Z; lia.
      * intros q Hq _. apply put_same.
Qed.
End Sync.

(** * No file, one process *)
Lemma one_ok fs w : moves 1 (amgx_init false "None") (before fs) w ->
  (forall g, g <> tmp_config -> w_files w g = fs g) /\ (w_done w 0 <= 3)%nat /\
  w_read w 0 = match w_done w 0 with O | 1%nat => [] | _ => [Some ""] end /\
  match w_done w 0 with O => True | 1%nat | 2%nat => w_files w tmp_config = Some "" | _ => w_files w tmp_config = None end.
Proof.
  change (amgx_init false "None") with [Create tmp_config; Load tmp_config; Remove tmp_config]. induction 1 as [|w w' _ (F & L & G & C) M]; [cbn; auto with arith|].
  destruct M as [r a Hr Ha _]. assert (r = 0%Z) by lia. subst r. rewrite done_perform, upd_same.
  assert (K : (w_done w 0 < 3)%nat) by (apply nth_error_Some with (l := [Create tmp_config; Load tmp_config; Remove tmp_config]); rewrite Ha; discriminate).
  destruct (w_done w 0%Z) as [|[|[|k]]] eqn:E; [| | |lia]; injection Ha as <-; cbn [perform w_files w_read].
  - split; [intros g Hg; rewrite put_other by exact Hg; auto|]. split; [lia|]. split; [exact G|apply put_same].
  - split; [exact F|]. split; [lia|]. split; [rewrite upd_same, G, C; reflexivity|exact C].
  - split; [intros g Hg; rewrite put_other by exact Hg; auto|]. split; [lia|]. split; [exact G|apply put_same].
Qed.

(** * No file, several processes that do not wait *)
Lemma race n fs : (2 <= n)%Z -> exists w, moves n (amgx_init false "None") (before fs) w /\ w_read w 1 = [None].
Proof.
  intros Hn. set (P := amgx_init false "None").
  set (w0 := before fs). set (w1 := perform (Create tmp_config) 0 w0). set (w2 := perform (Create tmp_config) 1 w1). set (w3 := perform (Load tmp_config) 0 w2).
  set (w4 := perform (Remove tmp_config) 0 w3). set (w5 := perform (Load tmp_config) 1 w4). exists w5. split; [|reflexivity].
  assert (M1 : move n P w0 w1) by (apply move_act; [lia|reflexivity|discriminate]).
  assert (M2 : move n P w1 w2) by (apply move_act; [lia|reflexivity|discriminate]).
  assert (M3 : move n P w2 w3) by (apply move_act; [lia|reflexivity|discriminate]).
  assert (M4 : move n P w3 w4) by (apply move_act; [lia|reflexivity|discriminate]).
  assert (M5 : move n P w4 w5) by (apply move_act; [lia|reflexivity|discriminate]).
  repeat (eapply moves_snoc; [|eassumption]). apply moves_nil.
Qed.

(** * Progress *)
Lemma least (h : Z -> nat) n : (1 <= n)%Z -> exists r, (0 <= r < n)%Z /\ forall q, (0 <= q < n)%Z -> (h r <= h q)%nat.
Proof.
  intros Hn. pattern n. apply Zlt_lower_bound_ind with (z := 1%Z); [|exact Hn]. clear n Hn. intros n IH Hn.
  destruct (Z.eq_dec n 1) as [->|]; [exists 0%Z; split; [lia|]; intros q Hq; replace q with 0%Z by lia; lia|].
  destruct (IH (n - 1)%Z ltac:(lia)) as (r & Hr & H). destruct (Nat.le_gt_cases (h r) (h (n - 1)%Z)).
  - exists r. split; [lia|]. intros q Hq. destruct (Z.eq_dec q (n - 1)) as [->|]; [lia|]. apply H. lia.
  - exists (n - 1)%Z. split; [lia|]. intros q Hq. destruct (Z.eq_dec q (n - 1)) as [->|]; [lia|]. specialize (H q ltac:(lia)). lia.
Qed.
Lemma done_le n P w w' : moves n P w w' -> (forall r, (w_done w r <= length P)%nat) -> forall r, (w_done w' r <= length P)%nat.
Proof.
  induction 1 as [|w1 w2 _ IH M]; intros H; [exact H|]. specialize (IH H). destruct M as [r a Hr Ha _]. intros q. rewrite done_perform.
  destruct (Z.eq_dec q r) as [->|N]; [|rewrite upd_other by exact N; apply IH]. rewrite upd_same. apply nth_error_Some. rewrite Ha. discriminate.
Qed.
Lemma progress n P fs w : (1 <= n)%Z -> moves n P (before fs) w -> (forall r, (0 <= r < n)%Z -> w_done w r = length P) \/ exists w', move n P w w'.
Proof.
  intros Hn M. destruct (least (w_done w) n Hn) as (r & Hr & Hl). pose proof (done_le _ _ _ _ M ltac:(cbn; intros; lia)) as B.
  destruct (nth_error P (w_done w r)) as [a|] eqn:Ea.
  - right. eexists. apply (move_act n P w r a Hr Ea). intros _. exact Hl.
  - left. intros q Hq. apply nth_error_None in Ea. specialize (Hl q Hq). specialize (B q). lia.
Qed.
