(** Lemmas about the files of the probes. *)
From Coq Require Import Ascii String ZifyBool Sorted.
From Verif Require Import Prelude ZSum RSum TypesModel GridModel GridSpec GridProof MeshProof IndexModel IndexSpec IndexProof
  BoundaryModel BoundarySpec BoundaryProof OperatorModel OperatorSpec OperatorProof BStateProof MatModel ConvModel ConvProof
  BodyModel BodySpec BodyProof DeltaModel DeltaSpec ProbeModel ProbeSpec ProbeProof ProbeInterp ProbeRun ProbeProps NSModel NSSpec NameModel NameSpec NameProof DriverModel DriverSpec DriverProof
  IbpmModel IbpmSpec IbpmProof IbOutModel ConfigModel ProgModel PfileModel PfileSpec.
Local Open Scope R_scope.

(** * Names *)
Lemma sub_split : forall k s, (k <= String.length s)%nat -> (substring 0 k s ++ substring k (String.length s - k) s)%string = s.
Proof.
  induction k as [|k IH]; intros s Hk.
  - destruct s as [|c s]; [reflexivity|]. cbn [substring String.append]. rewrite Nat.sub_0_r. clear Hk. cbn [String.length substring]. f_equal.
    induction s as [|c' s IHs]; [reflexivity|]. cbn [String.length substring]. now f_equal.
  - destruct s as [|c s]; [cbn in Hk; lia|]. cbn [String.length] in *. cbn [substring Nat.sub String.append]. f_equal. apply IH. lia.
Qed.
Lemma sub_len : forall k s, (k <= String.length s)%nat -> String.length (substring 0 k s) = k.
Proof. induction k as [|k IH]; intros s Hk; [destruct s; reflexivity|]. destruct s as [|c s]; [cbn in Hk; lia|]. cbn [substring String.length] in *. f_equal. apply IH. lia. Qed.
Lemma app_split : forall a b c d, String.length a = String.length b -> (a ++ c = b ++ d)%string -> a = b /\ c = d.
Proof.
  induction a as [|x a IH]; intros b c d Hl E; destruct b as [|y b]; cbn [String.length] in Hl; try lia; [auto|].
  cbn [String.append] in E. injection E as -> E. destruct (IH b c d ltac:(lia) E) as [-> ->]. auto.
Qed.
Lemma insert_point_inj s t : (6 <= String.length s)%nat -> (6 <= String.length t)%nat -> insert_point s = insert_point t -> s = t.
Proof.
  intros Hs Ht E. unfold insert_point in E.
  assert (L : forall u, (6 <= String.length u)%nat -> String.length (substring 0 (String.length u - 6) u ++ "." ++ substring (String.length u - 6) 6 u)%string = S (String.length u)).
  { intros u Hu. pose proof (sub_split (String.length u - 6) u ltac:(lia)) as X. replace (String.length u - (String.length u - 6))%nat with 6%nat in X by lia.
    apply (f_equal String.length) in X. rewrite str_len_app in X. rewrite !str_len_app. cbn [String.length]. lia. }
  assert (El : String.length s = String.length t). { pose proof (f_equal String.length E) as X. rewrite !L in X by auto. lia. }
  apply app_split in E; [|rewrite !sub_len by lia; lia]. destruct E as [E1 E2]. cbn [String.append] in E2. injection E2 as E2.
  pose proof (sub_split (String.length s - 6) s ltac:(lia)) as X. pose proof (sub_split (String.length t - 6) t ltac:(lia)) as Y.
  replace (String.length s - (String.length s - 6))%nat with 6%nat in X by lia. replace (String.length t - (String.length t - 6))%nat with 6%nat in Y by lia.
  rewrite <- X, <- Y, E1, E2. reflexivity.
Qed.

Lemma micro_near x : Rabs (IZR (micro x) - x * 1000000) <= 1 / 2.
Proof.
  unfold micro. set (y := x * 1000000). destruct (base_fp y) as [B1 B2]. assert (Ey : y = IZR (Int_part y) + frac_part y) by (unfold frac_part; lra).
  destruct (Rlt_dec (frac_part y) (1 / 2)).
  - rewrite Ey at 2. unfold Rabs. destruct (Rcase_abs _); lra.
  - destruct (Rlt_dec (1 / 2) (frac_part y)).
    + rewrite plus_IZR. rewrite Ey at 2. unfold Rabs. destruct (Rcase_abs _); lra.
    + destruct (Z.even (Int_part y)); rewrite ?plus_IZR; rewrite Ey at 2; unfold Rabs; destruct (Rcase_abs _); lra.
Qed.
Lemma micro_nonneg x : 0 <= x -> (0 <= micro x)%Z.
Proof.
  intros Hx. pose proof (micro_near x) as H. apply le_IZR. destruct (Z_lt_le_dec (micro x) 0) as [Hn|Hn]; [|now apply IZR_le].
  exfalso. assert (micro x <= -1)%Z as Hm by lia. apply IZR_le in Hm. unfold Rabs in H. destruct (Rcase_abs _) in H; lra.
Qed.
Lemma pad7_len s : (7 <= String.length (pad7 s))%nat.
Proof. unfold pad7. rewrite str_len_app, zeros_len. lia. Qed.
Lemma real_name_body x : exists n, (0 <= n)%Z /\ insert_point (pad7 (decimal (micro (Rabs x)))) = insert_point (step_name n) /\ n = micro (Rabs x).
Proof.
  exists (micro (Rabs x)). pose proof (micro_nonneg _ (Rabs_pos x)). split; [auto|]. split; [|reflexivity].
  unfold step_name, to_string. replace (micro (Rabs x) <? 0)%Z with false by lia. reflexivity.
Qed.
Lemma insert_point_head s : (7 <= String.length s)%nat -> exists c t t', s = String c t /\ insert_point s = String c t'.
Proof.
  intros H. destruct s as [|c t]; [cbn in H; lia|]. exists c, t. unfold insert_point. cbn [String.length] in *.
  replace (S (String.length t) - 6)%nat with (S (String.length t - 6))%nat by lia. cbn [substring String.append]. eauto.
Qed.
Lemma digit_not_minus n : (0 <= n)%Z -> forall t, insert_point (step_name n) <> ("-" ++ t)%string.
Proof.
  intros Hn t E. pose proof (step_name_digits n Hn) as Hd. destruct (insert_point_head (step_name n) (pad7_len _)) as (c & u & u' & E1 & E2).
  rewrite E1 in Hd. cbn [all_digits] in Hd. rewrite E2 in E. cbn [String.append] in E. injection E as -> _. cbn in Hd. lia.
Qed.
Lemma real_name_close x y : real_name x = real_name y -> Rabs (x - y) <= 1 / 1000000.
Proof.
  unfold real_name. destruct (real_name_body x) as (n & Hn & -> & En). destruct (real_name_body y) as (k & Hk & -> & Ek). intros E.
  pose proof (micro_near (Rabs x)) as Mx. pose proof (micro_near (Rabs y)) as My. rewrite <- En in Mx. rewrite <- Ek in My.
  assert (X : n = k -> (x < 0 <-> y < 0) -> Rabs (x - y) <= 1 / 1000000).
  { intros -> Hxy. clear E En Ek. unfold Rabs in *. repeat destruct (Rcase_abs _); try lra; exfalso; tauto || lra. }
  assert (I : insert_point (step_name n) = insert_point (step_name k) -> n = k).
  { intros H. apply insert_point_inj in H; [now apply step_name_inj| |]; pose proof (pad7_len (to_string n)); pose proof (pad7_len (to_string k)); unfold step_name; lia. }
  destruct (Rlt_dec x 0), (Rlt_dec y 0).
  - apply str_app_inj_l in E. apply X; [auto|tauto].
  - exfalso. symmetry in E. cbn [String.append] in E. exact (digit_not_minus k Hk _ E).
  - exfalso. exact (digit_not_minus n Hn _ E).
  - apply X; [auto|split; intros; contradiction].
Qed.
Lemma record_name_close f x y : record_name f x = record_name f y -> Rabs (x - y) <= 1 / 1000000.
Proof. unfold record_name. intros E. apply str_app_inj_l in E. apply str_app_inj_l in E. apply str_app_inj_l in E. now apply real_name_close. Qed.
Lemma mesh_not_record f x t : record_name f x <> ("/mesh/" ++ t)%string.
Proof. unfold record_name, fd2str. repeat destruct (_ =? _)%Z; cbn; discriminate. Qed.

(** * Files *)
Lemma aput_items l its : fold_left (fun F it => aput it F) its (Ascii l) = Ascii (l ++ its).
Proof. revert l. induction its as [|a t IH]; intros l; cbn [fold_left aput]; [now rewrite app_nil_r|]. rewrite IH, <- app_assoc. reflexivity. Qed.
Lemma put_records_ascii f rs : forall l, fold_left (put_record f) rs (Ascii l) = Ascii (l ++ map Block rs).
Proof. induction rs as [|a t IH]; intros l; cbn [fold_left map put_record aput]; [now rewrite app_nil_r|]. rewrite IH, <- app_assoc. reflexivity. Qed.
Lemma put_lines_ascii tvs : forall l, fold_left put_line tvs (Ascii l) = Ascii (l ++ map (fun tv => Line (fst tv) (snd tv)) tvs).
Proof. induction tvs as [|a t IH]; intros l; cbn [fold_left map]; [now rewrite app_nil_r|]. unfold put_line at 2. cbn [aput]. rewrite IH, <- app_assoc. reflexivity. Qed.

Definition hget (F : pfile) (k : string) : option hdata := match F with Hdf5 sets => sets k | _ => None end.
Definition is_hdf5 (F : pfile) : Prop := exists sets, F = Hdf5 sets.
Lemma hput_get name x F k : is_hdf5 F -> hget (hput name x F) k = if String.eqb name k then Some x else hget F k.
Proof. intros [s ->]. reflexivity. Qed.
Lemma hput_is name x F : is_hdf5 F -> is_hdf5 (hput name x F).
Proof. intros [s ->]. eexists. reflexivity. Qed.
Lemma put_record_eq f F r : is_hdf5 F -> put_record f F r = hput (record_name f (pr_time r)) (HReals (pr_data r) (pr_count r)) F.
Proof. intros [s ->]. reflexivity. Qed.
Lemma put_records_hdf5 f rs : forall F, is_hdf5 F ->
  is_hdf5 (fold_left (put_record f) rs F) /\
  (forall k, (forall r, In r rs -> record_name f (pr_time r) <> k) -> hget (fold_left (put_record f) rs F) k = hget F k) /\
  (forall j r, nthZ rs j = Some r -> (forall i r', (j < i)%Z -> nthZ rs i = Some r' -> record_name f (pr_time r') <> record_name f (pr_time r)) ->
     hget (fold_left (put_record f) rs F) (record_name f (pr_time r)) = Some (HReals (pr_data r) (pr_count r))) /\
  (forall k x, hget (fold_left (put_record f) rs F) k = Some x -> hget F k = Some x \/ exists r, In r rs /\ k = record_name f (pr_time r)).
Proof.
  induction rs as [|a t IH]; intros F HF.
  - cbn [fold_left]. split; [auto|]. split; [auto|]. split; [|auto]. intros j r Hj. apply nthZ_Some_range in Hj. cbn in Hj. lia.
  - cbn [fold_left]. rewrite put_record_eq by auto. set (F1 := hput _ _ F).
    assert (H1 : is_hdf5 F1) by now apply hput_is. destruct (IH F1 H1) as (A & B & C & E). split; [auto|]. split; [|split].
    + intros k Hk. rewrite B by (intros; apply Hk; now right). unfold F1. rewrite hput_get by auto.
      destruct (String.eqb_spec (record_name f (pr_time a)) k) as [Ek|]; [|reflexivity]. exfalso. apply (Hk a); [now left|auto].
    + intros j r Hj Hlater. pose proof (nthZ_Some_range _ _ _ Hj) as Hr. rewrite lenZ_cons in Hr. destruct (Z.eq_dec j 0) as [->|Hj0].
      * injection Hj as <-. rewrite B.
        -- unfold F1. rewrite hput_get by auto. now rewrite String.eqb_refl.
        -- intros r Hr'. apply In_nthZ in Hr'. destruct Hr' as (i & Hi & Ei). apply (Hlater (i + 1)%Z r ltac:(lia)). rewrite nthZ_cons_pos by lia. now replace (i + 1 - 1)%Z with i by lia.
      * rewrite nthZ_cons_pos in Hj by lia. apply (C (j - 1)%Z r Hj). intros i r' Hi Hr'. apply (Hlater (i + 1)%Z r' ltac:(lia)). rewrite nthZ_cons_pos by lia. now replace (i + 1 - 1)%Z with i by lia.
    + intros k x Hk. destruct (E k x Hk) as [H|(r & Hr & Er)]; [|right; exists r; split; [now right|auto]].
      unfold F1 in H. rewrite hput_get in H by auto. destruct (String.eqb_spec (record_name f (pr_time a)) k) as [Ek|]; [|now left].
      right. exists a. split; [now left|auto].
Qed.

Lemma mesh_set_eq d : (0 <= d < 3)%Z -> ("/mesh/" ++ dir2str d)%string = mesh_set d.
Proof. intros Hd. assert (d = 0 \/ d = 1 \/ d = 2)%Z as [->|[->| ->]] by lia; reflexivity. Qed.
Lemma mesh_set_neq d d' : (0 <= d < 3)%Z -> (0 <= d' < 3)%Z -> mesh_set d = mesh_set d' -> d = d'.
Proof. intros Hd Hd'. assert (d = 0 \/ d = 1 \/ d = 2)%Z as [->|[->| ->]] by lia; assert (d' = 0 \/ d' = 1 \/ d' = 2)%Z as [->|[->| ->]] by lia; intros E; first [reflexivity|cbn in E; discriminate]. Qed.

Section Grid.
Variables (m : mesh) (D : dec) (p : pdesc).
Let f := pc_field (pd_conf p).
Hypothesis Hs : mesh_setup m D.
Hypothesis Hf : (0 <= f < m_dim m \/ f = 3)%Z.
Hypothesis Hu : box_usable m f (pd_atol p) (pd_lo p) (pd_hi p).

Lemma volume_grid : exists P, probeVolumeInit m D f (pd_atol p) (pd_lo p) (pd_hi p) = Ok P /\
  vp_grid P = map (probe_line m p) (zrange 0 (m_dim m)) /\ concat (vp_natural P) = map (natural (m_n m f)) (probe_points m D p).
Proof.
  destruct (volume_probe_selects m D f (pd_atol p) (pd_lo p) (pd_hi p) Hs Hf Hu) as (P & EP & En & _ & _ & _ & Eg & _).
  exists P. split; [exact EP|]. split; [exact Eg|]. rewrite En. unfold probe_points. fold f.
  rewrite flat_map_concat_map, concat_map, map_map. reflexivity.
Qed.
Lemma combine_lines : combine (zrange 0 (lenZ (map (probe_line m p) (zrange 0 (m_dim m))))) (map (probe_line m p) (zrange 0 (m_dim m)))
  = map (fun d => (d, probe_line m p d)) (zrange 0 (m_dim m)).
Proof.
  pose proof (mf_dim _ _ (setup_facts _ _ Hs)) as Hd. rewrite lenZ_map, zrange_lenZ by (destruct Hd; lia). rewrite Z.sub_0_r.
  generalize (zrange 0 (m_dim m)) as l. intros l. induction l as [|a t IH]; [reflexivity|]. cbn [map combine]. now f_equal.
Qed.
Lemma grid_ascii P : vp_grid P = map (probe_line m p) (zrange 0 (m_dim m)) -> concat (vp_natural P) = map (natural (m_n m f)) (probe_points m D p) ->
  forall rs, fold_left (put_record f) rs (grid_pfile false P) = Ascii (ascii_contents m D p rs).
Proof.
  intros Eg En rs. unfold grid_pfile. rewrite Eg, En, combine_lines.
  assert (X : forall l l0, fold_left (fun F (dc : Z * list R) => aput (Coords (fst dc) (snd dc)) F) (map (fun d => (d, probe_line m p d)) l) (Ascii l0) = Ascii (l0 ++ map (fun d => Coords d (probe_line m p d)) l)).
  { induction l as [|a t IH]; intros l0; cbn [map fold_left]; [now rewrite app_nil_r|]. cbn [aput fst snd]. rewrite IH, <- app_assoc. reflexivity. }
  rewrite X. cbn [app aput]. rewrite put_records_ascii. unfold ascii_contents. fold f. rewrite <- app_assoc. reflexivity.
Qed.
Lemma grid_hdf5 P : vp_grid P = map (probe_line m p) (zrange 0 (m_dim m)) -> concat (vp_natural P) = map (natural (m_n m f)) (probe_points m D p) ->
  forall rs, exists sets, fold_left (put_record f) rs (grid_pfile true P) = Hdf5 sets /\ hdf5_contents m D p rs sets.
Proof.
  intros Eg En rs. pose proof (mf_dim _ _ (setup_facts _ _ Hs)) as Hd.
  assert (G : is_hdf5 (grid_pfile true P) /\ (forall d, (0 <= d < m_dim m)%Z -> hget (grid_pfile true P) (mesh_set d) = Some (HReals (probe_line m p d) None)) /\
    hget (grid_pfile true P) "/mesh/IS" = Some (HInts (map (natural (m_n m f)) (probe_points m D p))) /\
    forall k x, hget (grid_pfile true P) k = Some x -> k = "/mesh/IS"%string \/ exists d, (0 <= d < m_dim m)%Z /\ k = mesh_set d).
  { unfold grid_pfile. rewrite Eg, En, combine_lines.
    assert (X : forall l F, is_hdf5 F -> (forall d, In d l -> (0 <= d < m_dim m)%Z) -> let F' := fold_left (fun F (dc : Z * list R) => hput ("/mesh/" ++ dir2str (fst dc))%string (HReals (snd dc) None) F) (map (fun d => (d, probe_line m p d)) l) F in
      is_hdf5 F' /\ (forall d, (0 <= d < m_dim m)%Z -> In d l \/ hget F (mesh_set d) = Some (HReals (probe_line m p d) None) -> hget F' (mesh_set d) = Some (HReals (probe_line m p d) None)) /\
      forall k x, hget F' k = Some x -> hget F k = Some x \/ exists d, (0 <= d < m_dim m)%Z /\ k = mesh_set d).
    { induction l as [|a t IH]; intros F HF Hl; cbn [map fold_left].
      - split; [auto|]. split; [|auto]. intros d _ [[]|H]; auto.
      - cbn [fst snd]. pose proof (Hl a (or_introl eq_refl)) as Ha. rewrite mesh_set_eq by (destruct Hd; lia).
        destruct (IH (hput (mesh_set a) (HReals (probe_line m p a) None) F) (hput_is _ _ _ HF) ltac:(intros; apply Hl; now right)) as (A & B & C). split; [exact A|]. split.
        + intros d Hd' Hc. apply B; [auto|]. rewrite hput_get by auto. destruct (String.eqb_spec (mesh_set a) (mesh_set d)) as [E|E].
          * apply mesh_set_neq in E; [|destruct Hd; lia|destruct Hd; lia]. subst. now right.
          * destruct Hc as [[->|Hc]|Hc]; [contradiction|now left|now right].
        + intros k x Hk. destruct (C k x Hk) as [H|H]; [|now right]. rewrite hput_get in H by auto.
          destruct (String.eqb_spec (mesh_set a) k) as [<-|E]; [right; exists a; split; auto|now left]. }
    destruct (X (zrange 0 (m_dim m)) (Hdf5 (fun _ => None)) ltac:(eexists; reflexivity) ltac:(intros d Hd'; now apply zrange_In in Hd')) as (A & B & C).
    split; [now apply hput_is|]. split; [|split].
    - intros d Hd'. rewrite hput_get by auto. destruct (String.eqb_spec "/mesh/IS" (mesh_set d)) as [E|E].
      + exfalso. assert (d = 0 \/ d = 1 \/ d = 2)%Z as [->|[->| ->]] by (destruct Hd; lia); cbn in E; discriminate.
      + apply B; [auto|]. left. now apply zrange_In.
    - rewrite hput_get by auto. reflexivity.
    - intros k x Hk. rewrite hput_get in Hk by auto. destruct (String.eqb_spec "/mesh/IS" k) as [<-|E]; [now left|]. destruct (C k x Hk) as [H|H]; [discriminate|now right]. }
  destruct G as (G0 & G1 & G2 & G3). destruct (put_records_hdf5 f rs _ G0) as ((sets & Es) & B & C & E). exists sets. split; [exact Es|].
  rewrite Es in *. cbn [hget] in *. split; [|split; [|split]].
  - intros d Hd'. rewrite B; [now apply G1|]. intros r _. rewrite <- mesh_set_eq by (destruct Hd; lia). apply mesh_not_record.
  - rewrite B; [exact G2|]. intros r _. apply (mesh_not_record _ _ "IS").
  - exact C.
  - intros k x Hk. destruct (E k x Hk) as [H|H]; [|auto]. destruct (G3 k x H); auto.
Qed.
End Grid.

(** * One probe over the calls of a run *)
Definition pfold (m : mesh) (D : dec) (calls : list call) (x : pst) : res pst := foldM (fun x cl => probe_monitor m D cl x) calls x.

Lemma pfold_cons m D cl t x : pfold m D (cl :: t) x = do x' <- probe_monitor m D cl x; pfold m D t x'.
Proof. reflexivity. Qed.
Lemma vol_fold m D p P F calls : forall A o0 A' o,
  foldM (fun so (cl : call) => let '(n, t, U, y) := cl in
    do (s', o) <- monitor m D (pd_conf p) (volumeMonitorVec m (pc_field (pd_conf p)) P (pd_nsum p)) (fst so) U y n t; Ok (s', (snd so ++ o)%list)) calls (A, o0) = Ok (A', o) ->
  pfold m D calls (mkPS p (MVolume P A) (fold_left (put_record (pc_field (pd_conf p))) o0 F)) = Ok (mkPS p (MVolume P A') (fold_left (put_record (pc_field (pd_conf p))) o F)).
Proof.
  induction calls as [|cl t IH]; intros A o0 A' o H; cbn [foldM] in H.
  - injection H as <- <-. reflexivity.
  - apply bind_ok_inv in H. destruct H as (so & H1 & H2). destruct cl as [[[n tm] U] y]. cbn [fst snd] in H1.
    apply bind_ok_inv in H1. destruct H1 as ([A1 o1] & H1 & H1'). injection H1' as <-.
    rewrite pfold_cons. unfold probe_monitor. cbn [pt_desc pt_mem pt_file]. rewrite H1. cbn [bind]. rewrite <- fold_left_app. exact (IH _ _ _ _ H2).
Qed.

Lemma map_combine_fst {A B C} (g : A * B -> C) (h : A -> B) l : map g (combine l (map h l)) = map (fun a => g (a, h a)) l.
Proof. induction l as [|a t IH]; [reflexivity|]. cbn [map combine]. now f_equal. Qed.
Lemma mapM_combine {A B C} (g : A * B -> res C) (h : A -> B) l : mapM g (combine l (map h l)) = mapM (fun a => g (a, h a)) l.
Proof. induction l as [|a t IH]; [reflexivity|]. cbn [map combine mapM]. now rewrite IH. Qed.
Lemma mapM_fun {A C} (g : A -> res C) (P : A -> C -> Prop) (dflt : C) (eqb : A -> A -> bool) l : (forall x y, eqb x y = true <-> x = y) ->
  (forall a, In a l -> exists c, g a = Ok c /\ P a c) -> exists h, mapM g l = Ok (map h l) /\ forall a, In a l -> g a = Ok (h a) /\ P a (h a).
Proof.
  intros Heq. induction l as [|a t IH]; intros H; [exists (fun _ => dflt); split; [reflexivity|intros a []]|].
  destruct (H a (or_introl eq_refl)) as (c & Ec & Pc). destruct IH as (h & Eh & Hh); [intros; apply H; now right|].
  exists (fun x => if eqb a x then c else h x). cbn [mapM map]. rewrite (proj2 (Heq a a) eq_refl). rewrite Ec. cbn [bind]. rewrite Eh. cbn [bind]. split.
  - f_equal. f_equal. apply map_ext_in. intros b Hb. destruct (eqb a b) eqn:E; [|reflexivity]. apply Heq in E. subst b. destruct (Hh a Hb) as [X _]. congruence.
  - intros b Hb. destruct (eqb a b) eqn:E; [apply Heq in E; subst b; auto|]. destruct Hb as [<-|Hb]; [rewrite (proj2 (Heq a a) eq_refl) in E; discriminate|auto].
Qed.
Lemma concat_nils {A} (h : Z -> list A) l : (forall r, In r l -> h r = []) -> concat (map h l) = [].
Proof. induction l as [|a t IH]; intros H; [reflexivity|]. cbn [map concat]. rewrite H by now left. apply IH. intros; apply H; now right. Qed.
Lemma concat_single {A} (h : Z -> list A) (r0 : Z) l : NoDup l -> In r0 l -> (forall r, In r l -> r <> r0 -> h r = []) -> concat (map h l) = h r0.
Proof.
  induction l as [|a t IH]; intros Hn Hin Hh; [destruct Hin|]. inversion_clear Hn as [|? ? Na Nt]. cbn [map concat]. destruct (Z.eq_dec a r0) as [->|Ha].
  - rewrite (concat_nils h t); [apply app_nil_r|]. intros r Hr. apply Hh; [now right|]. intros ->. contradiction.
  - destruct Hin as [E|Hin]; [congruence|]. rewrite (Hh a (or_introl eq_refl) Ha). cbn [app]. apply IH; auto. intros r Hr Hne. apply Hh; [now right|auto].
Qed.

Definition monitor_step {S O} m D c (mv : S -> vec -> R -> res (S * list O)) (so : S * list O) (cl : call) : res (S * list O) :=
  let '(n, t, U, y) := cl in do (s', o) <- monitor m D c mv (fst so) U y n t; Ok (s', (snd so ++ o)%list).
Lemma monitor_fold_grows {S O} m D c (mv : S -> vec -> R -> res (S * list O)) calls : forall so so', foldM (monitor_step m D c mv) calls so = Ok so' -> exists o, snd so' = (snd so ++ o)%list.
Proof.
  induction calls as [|cl t IH]; intros so so' H; cbn [foldM] in H.
  - injection H as <-. exists []. now rewrite app_nil_r.
  - apply bind_ok_inv in H. destruct H as (s1 & H1 & H2). apply IH in H2. destruct H2 as (o & ->). destruct cl as [[[n tm] U] y]. cbn [monitor_step] in H1.
    apply bind_ok_inv in H1. destruct H1 as ([a o1] & _ & H1). injection H1 as <-. cbn [snd]. rewrite <- app_assoc. eauto.
Qed.

Lemma point_fold m D p r0 (Hr0 : (0 <= r0 < nranks D)%Z) calls : forall (st fin : Z -> pprobe * list (R * R)),
  (forall r, (0 <= r < nranks D)%Z -> foldM (monitor_step m D (pd_conf p) (probePointMonitorVec m D r (pc_field (pd_conf p)))) calls (st r) = Ok (fin r)) ->
  (forall r, (0 <= r < nranks D)%Z -> r <> r0 -> snd (fin r) = []) ->
  pfold m D calls (mkPS p (MPoint (map (fun r => fst (st r)) (zrange 0 (nranks D)))) (fold_left put_line (snd (st r0)) (Ascii [])))
  = Ok (mkPS p (MPoint (map (fun r => fst (fin r)) (zrange 0 (nranks D)))) (fold_left put_line (snd (fin r0)) (Ascii []))).
Proof.
  induction calls as [|cl t IH]; intros st fin H Hz.
  - cbn [foldM] in H. unfold pfold. cbn [foldM]. f_equal. f_equal.
    + f_equal. apply map_ext_in. intros r Hr. apply zrange_In in Hr. specialize (H r Hr). now injection H as ->.
    + specialize (H r0 Hr0). now injection H as ->.
  - cbn [foldM] in H. destruct cl as [[[n tm] U] y].
    assert (Q : exists nx : Z -> pprobe * list (R * R),
        mapM (fun r => monitor m D (pd_conf p) (probePointMonitorVec m D r (pc_field (pd_conf p))) (fst (st r)) U y n tm) (zrange 0 (nranks D)) = Ok (map nx (zrange 0 (nranks D))) /\
        forall r, In r (zrange 0 (nranks D)) -> monitor m D (pd_conf p) (probePointMonitorVec m D r (pc_field (pd_conf p))) (fst (st r)) U y n tm = Ok (nx r) /\
          foldM (monitor_step m D (pd_conf p) (probePointMonitorVec m D r (pc_field (pd_conf p)))) t (fst (nx r), snd (st r) ++ snd (nx r))%list = Ok (fin r)).
    { apply (mapM_fun (fun r => monitor m D (pd_conf p) (probePointMonitorVec m D r (pc_field (pd_conf p))) (fst (st r)) U y n tm)
        (fun r c => foldM (monitor_step m D (pd_conf p) (probePointMonitorVec m D r (pc_field (pd_conf p)))) t (fst c, snd (st r) ++ snd c)%list = Ok (fin r)) (mkPP None [], []) Z.eqb); [apply Z.eqb_eq|].
      intros r Hr. apply zrange_In in Hr. specialize (H r Hr). apply bind_ok_inv in H. destruct H as (s1 & H1 & H2). cbn [monitor_step] in H1. apply bind_ok_inv in H1.
      destruct H1 as ([a o] & H1 & H1'). exists (a, o). split; [exact H1|]. injection H1' as <-. exact H2. }
    destruct Q as (nx & E & Hnx). set (st' := fun r => (fst (nx r), snd (st r) ++ snd (nx r))%list).
    assert (Hs' : forall r, (0 <= r < nranks D)%Z -> foldM (monitor_step m D (pd_conf p) (probePointMonitorVec m D r (pc_field (pd_conf p)))) t (st' r) = Ok (fin r)).
    { intros r Hr. apply Hnx. now apply zrange_In. }
    assert (Hn : forall r, In r (zrange 0 (nranks D)) -> r <> r0 -> snd (nx r) = []).
    { intros r Hr Hne. apply zrange_In in Hr. destruct (monitor_fold_grows _ _ _ _ _ _ _ (Hs' r Hr)) as (o & Eo). rewrite (Hz r Hr Hne) in Eo. unfold st' in Eo. cbn [snd] in Eo.
      symmetry in Eo. apply app_eq_nil in Eo. destruct Eo as [Eo _]. apply app_eq_nil in Eo. apply Eo. }
    rewrite pfold_cons. unfold probe_monitor. cbn [pt_desc pt_mem pt_file]. rewrite mapM_combine. cbn [fst snd]. rewrite E. cbn [bind].
    rewrite map_map. rewrite map_map. rewrite (concat_single (fun r => snd (nx r)) r0); [|apply zrange_NoDup|now apply zrange_In|exact Hn].
    rewrite <- fold_left_app. exact (IH st' fin Hs' Hz).
Qed.

(** * The values of a field *)
Definition fpt_eqb (a b : Z * pt) : bool := (fst a =? fst b)%Z && pt_eqb (snd a) (snd b).
Lemma fpt_eqb_spec a b : fpt_eqb a b = true <-> a = b.
Proof. unfold fpt_eqb. rewrite andb_true_iff, Z.eqb_eq, pt_eqb_spec. destruct a, b; cbn [fst snd]. split; [intros [-> ->]; reflexivity|intros H; injection H as -> ->; auto]. Qed.
Definition values_of (m : mesh) (D : dec) (f : Z) (cl : call) (p : pt) : R :=
  let '(n, t, U, P) := cl in
  if (f =? 3)%Z then match findpos pt_eqb p (field_layout D 3) 0 with Some id => P id | None => 0 end
  else match findpos fpt_eqb (f, p) (packed_layout (m_dim m) D) 0 with Some id => U id | None => 0 end.
Lemma values_of_ok m D f n t U P : mesh_setup m D -> field_values m D f U P (values_of m D f (n, t, U, P)).
Proof.
  intros Hs. pose proof (setup_facts _ _ Hs) as F. unfold field_values, values_of. destruct (f =? 3)%Z.
  - intros id p Hid. destruct (findpos_In pt_eqb pt_eqb_spec p (field_layout D 3) 0%Z ltac:(eapply nthZ_In; eauto)) as (g & Eg). rewrite Eg.
    destruct (findpos_Some _ pt_eqb_spec _ _ _ _ Eg) as [_ Bg]. rewrite Z.sub_0_r in Bg.
    f_equal. eapply nthZ_NoDup_inj; [|exact Bg|exact Hid]. eapply field_layout_NoDup. exact (mf_dec _ _ F 3%Z (or_intror eq_refl)).
  - intros id p Hid. match goal with |- context [findpos ?a ?b ?c ?d] => destruct (findpos a b c d) as [g|] eqn:Eg end;
      [|apply (findpos_None _ fpt_eqb_spec) in Eg; exfalso; apply Eg; exact (nthZ_In _ _ _ Hid)].
    destruct (findpos_Some _ fpt_eqb_spec _ _ _ _ Eg) as [_ Bg]. rewrite Z.sub_0_r in Bg.
    f_equal. eapply nthZ_NoDup_inj; [|exact Bg|exact Hid]. apply (packed_layout_NoDup _ _ (m_n m)). intros g0 Hg0. apply (mf_dec _ _ F). now left.
Qed.

(** * One probe over a run *)
Lemma selects_calls c calls : pc_nmonitor c <> 0%Z -> selects (scheduled c) calls (filter (schedb c) calls).
Proof. intros Hn. apply selects_filter. intros a. now apply schedb_spec. Qed.

Lemma probe_run m D p : mesh_setup m D -> probe_usable m p ->
  exists x0, probe_init m D p = Ok x0 /\ pt_desc x0 = p /\
    forall calls, exists x, pfold m D calls x0 = Ok x /\ pt_desc x = p /\ probe_file m D p calls (pt_file x).
Proof.
  intros Hs (Hn & Hk). set (c := pd_conf p) in *. set (f := pc_field c) in *. destruct Hk as [(Ek & Hf & Hu)|(Ek & Hf)]; unfold probe_init; rewrite Ek; fold c; fold f.
  - destruct (volume_grid m D p Hs Hf Hu) as (P & EP & Eg & En). unfold f, c in EP. fold c in EP. fold f in EP. fold c f. rewrite EP. cbn [bind].
    eexists. split; [reflexivity|]. split; [reflexivity|]. intros calls.
    destruct (volume_probe_records m D c (pd_atol p) (pd_lo p) (pd_hi p) (pd_nsum p) calls _ (fun cl => values_of m D f cl) Hs Hf Hn Hu (selects_calls c calls Hn)
      (fun n t U P _ => values_of_ok m D f n t U P Hs)) as (P' & A & rs & EP' & Er & _).
    fold f in EP'. rewrite EP in EP'. injection EP' as <-. unfold run_probe in Er. pose proof (vol_fold m D p P (grid_pfile (pd_hdf5 p) P) calls _ _ _ _ Er) as X. cbn [fold_left] in X.
    eexists. split; [exact X|]. split; [reflexivity|]. cbn [pt_file]. unfold probe_file. rewrite Ek. intros sel w Hsel Hw. exists rs.
    destruct (volume_probe_records m D c (pd_atol p) (pd_lo p) (pd_hi p) (pd_nsum p) calls sel w Hs Hf Hn Hu Hsel Hw) as (P' & A' & rs' & EP' & Er' & R1 & R2).
    fold f in EP'. rewrite EP in EP'. injection EP' as <-. unfold run_probe in Er'. fold c in Er. fold f in Er. fold f in Er'. pose proof (eq_trans (eq_sym Er) Er') as Y. injection Y as _ <-.
    split; [split; assumption|]. destruct (pd_hdf5 p); [exact (grid_hdf5 m D p Hs P Eg En rs)|exact (grid_ascii m D p Hs P Eg En rs)].
  - assert (Hin : in_span m p \/ ~ in_span m p).
    { unfold in_span. fold c. fold f. pose proof (mf_dim _ _ (setup_facts _ _ Hs)) as Hd.
      assert (X : forall d, {crd m f d 0 <= loc_of p d < crd m f d (m_n m f d)} + {~ (crd m f d 0 <= loc_of p d < crd m f d (m_n m f d))}).
      { intros d. destruct (Rle_dec (crd m f d 0) (loc_of p d)), (Rlt_dec (loc_of p d) (crd m f d (m_n m f d))); [left; lra|right; lra|right; lra|right; lra]. }
      destruct (X 0%Z) as [A|A]; [|right; intros H; apply A, H; destruct Hd; lia]. destruct (X 1%Z) as [B|B]; [|right; intros H; apply B, H; destruct Hd; lia].
      destruct Hd as [Hd|Hd]; [left; intros d Hd'; assert (d = 0 \/ d = 1)%Z as [->| ->] by lia; assumption|].
      destruct (X 2%Z) as [C|C]; [|right; intros H; apply C, H; lia]. left. intros d Hd'. assert (d = 0 \/ d = 1 \/ d = 2)%Z as [->|[->| ->]] by lia; assumption. }
    pose proof (setup_facts m D Hs) as F.
    assert (Ini : exists h, mapM (fun r => probePointInit m D r f (loc_of p)) (zrange 0 (nranks D)) = Ok (map h (zrange 0 (nranks D))) /\
      forall r, In r (zrange 0 (nranks D)) -> probePointInit m D r f (loc_of p) = Ok (h r) /\ True).
    { apply (mapM_fun _ (fun _ _ => True) (mkPP None []) Z.eqb); [apply Z.eqb_eq|]. intros r Hr. apply zrange_In in Hr.
      destruct (init_point m D Hs f Hf (loc_of p) r Hr) as (it & E & _). rewrite E. eauto. }
    destruct Ini as (h & Eh & Hh). change (fun d => match nthZ (pd_loc p) d with Some x => x | None => 0 end) with (loc_of p). rewrite Eh. cbn [bind].
    eexists. split; [reflexivity|]. split; [reflexivity|]. intros calls.
    destruct Hin as [Hin|Hin].
    + destruct (point_probe_run m D c (loc_of p) calls _ (fun cl => values_of m D f cl) Hs Hf Hn Hin (selects_calls c calls Hn)
        (fun n t U P _ => values_of_ok m D f n t U P Hs)) as (r0 & Hr0 & Hrun).
      assert (Fin : exists fin, mapM (fun r => foldM (monitor_step m D c (probePointMonitorVec m D r f)) calls (h r, [])) (zrange 0 (nranks D)) = Ok (map fin (zrange 0 (nranks D))) /\
        forall r, In r (zrange 0 (nranks D)) -> foldM (monitor_step m D c (probePointMonitorVec m D r f)) calls (h r, []) = Ok (fin r) /\ (r <> r0 -> snd (fin r) = [])).
      { apply (mapM_fun (fun r => foldM (monitor_step m D c (probePointMonitorVec m D r f)) calls (h r, [])) (fun r s => r <> r0 -> snd s = []) (mkPP None [], []) Z.eqb); [apply Z.eqb_eq|].
        intros r Hr. pose proof (proj1 (Hh r Hr)) as E1. apply zrange_In in Hr. destruct (Hrun r Hr) as (P0 & P1 & lines & E0 & Er & Hl). fold f in E0. rewrite E1 in E0. injection E0 as <-.
        exists (P1, lines). split; [exact Er|]. intros Hne. destruct (Z.eqb_spec r r0); [contradiction|exact Hl]. }
      destruct Fin as (fin & _ & Hfin).
      pose proof (point_fold m D p r0 Hr0 calls (fun r => (h r, [])) fin ltac:(intros r Hr; apply Hfin; now apply zrange_In) ltac:(intros r Hr; apply Hfin; now apply zrange_In)) as X.
      cbn [fst snd fold_left] in X. eexists. split; [exact X|]. split; [reflexivity|]. cbn [pt_file]. unfold probe_file. rewrite Ek. intros sel w Hsel Hw.
      exists (snd (fin r0)). split; [rewrite put_lines_ascii; reflexivity|]. split; [intros _|intros Hx; contradiction]. fold c. fold f.
      destruct (point_probe_run m D c (loc_of p) calls sel w Hs Hf Hn Hin Hsel Hw) as (r1 & Hr1 & Hrun1).
      destruct (Hrun1 r0 Hr0) as (P0 & P1 & lines & E0 & Er & Hl). fold f in E0, Er. rewrite (proj1 (Hh r0 ltac:(now apply zrange_In))) in E0. injection E0 as <-.
      pose proof (eq_trans (eq_sym (proj1 (Hfin r0 ltac:(now apply zrange_In)))) Er) as Y. injection Y as Y. rewrite Y. cbn [snd].
      destruct (Z.eqb_spec r0 r1) as [<-|Hne]; [exact Hl|]. subst lines.
      destruct (Hrun1 r1 Hr1) as (P0 & P2 & lines & E0 & Er1 & Hl). rewrite Z.eqb_refl in Hl. fold f in E0, Er1. rewrite (proj1 (Hh r1 ltac:(now apply zrange_In))) in E0. injection E0 as <-.
      destruct (Hfin r1 ltac:(now apply zrange_In)) as [Ef Hf1]. pose proof (eq_trans (eq_sym Ef) Er1) as Z1. injection Z1 as Z1. specialize (Hf1 ltac:(auto)). rewrite Z1 in Hf1. cbn [snd] in Hf1. subst lines.
      inversion Hl. constructor.
    + assert (H1 : (0 < nranks D)%Z).
      { pose proof (mf_dec _ _ F f (or_introl Hf)) as Hd. pose proof (mf_sizes _ _ F f (or_introl Hf)) as Hz.
        destruct (owner_exists D _ f (0, 0, 0)%Z Hd) as (r & Hr & _); [|lia]. unfold sizes_ok in Hz. unfold interior. lia. }
      assert (E : forall r, (0 <= r < nranks D)%Z -> exists P1, foldM (monitor_step m D c (probePointMonitorVec m D r f)) calls (h r, []) = Ok (P1, [])).
      { intros r Hr. pose proof (proj1 (Hh r ltac:(now apply zrange_In))) as E1. destruct (init_point m D Hs f Hf (loc_of p) r Hr) as (it & Ei & Hit). rewrite E1 in Ei. injection Ei as ->.
        destruct Hit as [[-> _]|(Hx & _)]; [|exfalso; apply Hin; exact Hx].
        destruct (feed_point m D Hs f Hf (loc_of p) r None (fun cl => values_of m D f cl) (filter (schedb c) calls) Hr (or_introl eq_refl)
          (fun n t U P _ => values_of_ok m D f n t U P Hs) (fun _ => 0) [] ltac:(reflexivity)) as (e1 & Ee). cbn [app] in Ee.
        eexists. etransitivity; [exact (run_probe_sel m D c _ _ calls _ F (or_introl Hf) Hn (selects_calls c calls Hn))|]. fold f. exact Ee. }
      assert (Fin : exists fin, mapM (fun r => foldM (monitor_step m D c (probePointMonitorVec m D r f)) calls (h r, [])) (zrange 0 (nranks D)) = Ok (map fin (zrange 0 (nranks D))) /\
        forall r, In r (zrange 0 (nranks D)) -> foldM (monitor_step m D c (probePointMonitorVec m D r f)) calls (h r, []) = Ok (fin r) /\ snd (fin r) = []).
      { apply (mapM_fun (fun r => foldM (monitor_step m D c (probePointMonitorVec m D r f)) calls (h r, [])) (fun r s => snd s = []) (mkPP None [], []) Z.eqb); [apply Z.eqb_eq|].
        intros r Hr. apply zrange_In in Hr. destruct (E r Hr) as (P1 & E1). eexists. split; [exact E1|reflexivity]. }
      destruct Fin as (fin & _ & Hfin).
      pose proof (point_fold m D p 0 ltac:(lia) calls (fun r => (h r, [])) fin ltac:(intros r Hr; apply Hfin; now apply zrange_In) ltac:(intros r Hr _; apply Hfin; now apply zrange_In)) as X.
      cbn [fst snd fold_left] in X. rewrite (proj2 (Hfin 0%Z ltac:(apply zrange_In; lia))) in X. eexists. split; [exact X|]. split; [reflexivity|]. cbn [pt_file fold_left].
      unfold probe_file. rewrite Ek. intros sel w Hsel Hw. exists []. split; [reflexivity|]. split; [intros Hx; contradiction|reflexivity].
Qed.

(** * The loop *)
Fixpoint plain_loop {St X : Type} (fuel : nat) (ite : St -> Z) (conf : ioconf) (step : St -> res St)
    (write : St -> disk -> res (list fsop * X)) (s : St) (d : disk) : res (option (St * disk * list X)) :=
  if (ite s >=? c_nstart conf + c_nt conf)%Z then Ok (Some (s, d, []))
  else
    match fuel with
    | O => Ok None
    | S k =>
        do s' <- step s;
        do (ops, x) <- write s' d;
        do r <- plain_loop k ite conf step write s' (run_ops ops d);
        Ok (match r with Some (s2, d2, tr) => Some (s2, d2, x :: tr) | None => None end)
    end.
Lemma f_drive_plain {St} fuel ite conf (step : St -> res St) write : forall s d, f_drive fuel ite conf step write s d = plain_loop fuel ite conf step write s d.
Proof.
  induction fuel as [|k IH]; intros s d; cbn [f_drive plain_loop]; [reflexivity|]. destruct (ite s >=? _)%Z; [reflexivity|].
  destruct (step s) as [s'| |]; cbn [bind]; [|reflexivity|reflexivity]. destruct (write s' d) as [[o x]| |]; cbn [bind]; [|reflexivity|reflexivity]. now rewrite IH.
Qed.
Lemma drive_plain fuel conf m D mon step : forall s d, drive fuel conf m D mon step s d =
  plain_loop fuel s_ite conf step (fun s d => do o <- write_step conf m D mon s d; Ok (o, (s_ite s, o))) s d.
Proof.
  induction fuel as [|k IH]; intros s d; cbn [drive plain_loop]; unfold finished; [reflexivity|]. destruct (s_ite s >=? _)%Z; [reflexivity|].
  destruct (step s) as [s'| |]; cbn [bind]; [|reflexivity|reflexivity]. destruct (write_step conf m D mon s' d) as [o| |]; cbn [bind]; [|reflexivity|reflexivity]. now rewrite IH.
Qed.

Lemma mapM_Forall2 {A B} (g : A -> res B) l : forall ys, mapM g l = Ok ys <-> Forall2 (fun x y => g x = Ok y) l ys.
Proof.
  induction l as [|a t IH]; intros ys; cbn [mapM].
  - split; [intros H; injection H as <-; constructor|intros H; inversion H; reflexivity].
  - split.
    + intros H. apply bind_ok_inv in H. destruct H as (y & E & H). apply bind_ok_inv in H. destruct H as (ys' & E' & H). injection H as <-. constructor; [exact E|]. now apply IH.
    + intros H. inversion H as [|a' y t' ys' E E']; subst. rewrite E. cbn [bind]. apply IH in E'. rewrite E'. reflexivity.
Qed.

Lemma last_dflt {A} (t : list A) : forall a d d', last (a :: t) d = last (a :: t) d'.
Proof. induction t as [|b t IH]; intros a d d'; [reflexivity|]. change (last (b :: t) d = last (b :: t) d'). apply IH. Qed.
Lemma last_cons {A} (l : list A) a d : last (a :: l) d = last l a.
Proof. destruct l as [|b t]; [reflexivity|]. exact (last_dflt t b d a). Qed.

Section Loop.
Context {St X : Type} (ite : St -> Z) (tm : St -> R) (dt : R) (conf : ioconf) (m : mesh) (D : dec) (step : St -> res St)
  (write : St -> disk -> res (list fsop * X)) (obs : St -> call).
Hypothesis Hstep : forall s s', step s = Ok s' -> ite s' = (ite s + 1)%Z /\ tm s' = tm s + dt.

Lemma p_loop_inv fuel : forall s d xs s2 d2 tr xs2, p_loop fuel ite conf m D step write obs s d xs = Ok (Some (s2, d2, tr, xs2)) ->
  plain_loop fuel ite conf step write s d = Ok (Some (s2, d2, tr)) /\
  exists hist, history step ite tm dt s (Z.max 0 (c_nstart conf + c_nt conf - ite s)) hist s2 /\
    Forall2 (fun x x2 => pfold m D (map obs hist) x = Ok x2) xs xs2.
Proof.
  assert (Z0 : forall (s : St) (d : disk) (xs : list pst) (s2 : St) (d2 : disk) (tr : list X) (xs2 : list pst), (ite s >=? c_nstart conf + c_nt conf)%Z = true -> Ok (Some (s, d, @nil X, xs)) = Ok (Some (s2, d2, tr, xs2)) ->
    Ok (Some (s, d, @nil X)) = Ok (Some (s2, d2, tr)) /\ exists hist, history step ite tm dt s (Z.max 0 (c_nstart conf + c_nt conf - ite s)) hist s2 /\
    Forall2 (fun x x2 => pfold m D (map obs hist) x = Ok x2) xs xs2).
  { intros s d xs s2 d2 tr xs2 E H. injection H as <- <- <- <-. split; [reflexivity|]. exists []. split.
    - split; [exact I|]. split; [reflexivity|]. split; [change (lenZ (@nil St)) with 0%Z; lia|]. intros j s0 Hj. apply nthZ_Some_range in Hj. cbn in Hj. lia.
    - clear. induction xs; constructor; auto. }
  induction fuel as [|k IH]; intros s d xs s2 d2 tr xs2 H; cbn [p_loop plain_loop] in *; destruct (ite s >=? c_nstart conf + c_nt conf)%Z eqn:E; [now apply Z0|discriminate|now apply Z0|].
  apply bind_ok_inv in H. destruct H as (s' & E1 & H). apply bind_ok_inv in H. destruct H as ([o x] & E2 & H). apply bind_ok_inv in H. destruct H as (xs' & E3 & H).
  apply bind_ok_inv in H. destruct H as (r & E4 & H). destruct r as [[[[sa da] tra] xsa]|]; [|discriminate]. injection H as <- <- <- <-.
  destruct (IH _ _ _ _ _ _ _ E4) as (G & hist & (H1 & H2 & H3 & H4) & H5). rewrite E1. cbn [bind]. rewrite E2. cbn [bind]. rewrite G. cbn [bind]. split; [reflexivity|].
  destruct (Hstep _ _ E1) as [Hi Ht]. exists (s' :: hist). split.
  - split; [split; auto|]. split.
    { rewrite <- H2. apply last_cons. }
    split; [rewrite lenZ_cons, H3; lia|].
    intros j s0 Hj. pose proof (nthZ_Some_range _ _ _ Hj) as Hr. destruct (Z.eq_dec j 0) as [->|Hj0].
    + injection Hj as <-. split; [lia|]. rewrite Ht. cbn. lra.
    + rewrite nthZ_cons_pos in Hj by lia. destruct (H4 _ _ Hj) as [A B]. split; [lia|]. rewrite B, Ht. replace (j - 1 + 1)%Z with j by lia. rewrite plus_IZR. lra.
  - apply mapM_Forall2 in E3. clear -E3 H5. revert xsa H5. induction E3 as [|x x' l l' Ex E3 IH]; intros xsa H5; inversion H5; subst; constructor; [|now apply IH].
    cbn [map]. rewrite pfold_cons, Ex. assumption.
Qed.

Definition lasting (x : pst) : Prop := forall calls, exists x', pfold m D calls x = Ok x'.
Lemma lasting_step x cl : lasting x -> exists x', probe_monitor m D cl x = Ok x' /\ lasting x'.
Proof.
  intros H. destruct (H [cl]) as [x' E]. rewrite pfold_cons in E. apply bind_ok_inv in E. destruct E as (x1 & E1 & _). exists x1. split; [exact E1|].
  intros calls. destruct (H (cl :: calls)) as [x2 E2]. rewrite pfold_cons, E1 in E2. cbn [bind] in E2. eauto.
Qed.
Lemma lasting_all xs cl : Forall lasting xs -> exists xs', mapM (probe_monitor m D cl) xs = Ok xs' /\ Forall lasting xs'.
Proof.
  induction 1 as [|x l Hx Hl IH]; [exists []; split; [reflexivity|constructor]|]. destruct (lasting_step x cl Hx) as (x' & E & Hx'). destruct IH as (xs' & E' & Hl').
  exists (x' :: xs'). cbn [mapM]. rewrite E. cbn [bind]. rewrite E'. split; [reflexivity|now constructor].
Qed.
Lemma p_loop_total fuel : forall s d xs s2 d2 tr, Forall lasting xs -> plain_loop fuel ite conf step write s d = Ok (Some (s2, d2, tr)) ->
  exists xs2, p_loop fuel ite conf m D step write obs s d xs = Ok (Some (s2, d2, tr, xs2)).
Proof.
  induction fuel as [|k IH]; intros s d xs s2 d2 tr Hx H; cbn [p_loop plain_loop] in *; destruct (ite s >=? c_nstart conf + c_nt conf)%Z.
  - injection H as <- <- <-. eauto.
  - discriminate.
  - injection H as <- <- <-. eauto.
  - apply bind_ok_inv in H. destruct H as (s' & E1 & H). apply bind_ok_inv in H. destruct H as ([o x] & E2 & H). apply bind_ok_inv in H. destruct H as (r & E4 & H).
    destruct r as [[[sa da] tra]|]; [|discriminate]. injection H as <- <- <-. destruct (lasting_all xs (obs s') Hx) as (xs' & E3 & Hx').
    destruct (IH _ _ _ _ _ _ Hx' E4) as (xs2 & G). rewrite E1. cbn [bind]. rewrite E2. cbn [bind]. rewrite E3. cbn [bind]. rewrite G. cbn [bind]. eauto.
Qed.
End Loop.

(** * All probes *)
Lemma inits_last m D probes : mesh_setup m D -> Forall (probe_usable m) probes -> exists xs, mapM (probe_init m D) probes = Ok xs /\ Forall (lasting m D) xs.
Proof.
  intros Hs. induction 1 as [|p l Hp Hl IH]; [exists []; split; [reflexivity|constructor]|]. destruct (probe_run m D p Hs Hp) as (x0 & E & _ & Hc). destruct IH as (xs & E' & Hx).
  exists (x0 :: xs). cbn [mapM]. rewrite E. cbn [bind]. rewrite E'. split; [reflexivity|]. constructor; [|exact Hx]. intros calls. destruct (Hc calls) as (x & Ex & _). eauto.
Qed.
Lemma probe_disk_other xs : forall q path, ~ In path (map (fun x => pd_path (pt_desc x)) xs) -> probe_disk xs q path = q path.
Proof.
  induction xs as [|x l IH]; intros q path H; [reflexivity|]. unfold probe_disk. cbn [fold_left]. fold (probe_disk l (pset q (pd_path (pt_desc x)) (pt_file x))). rewrite IH by (intros X; apply H; now right).
  unfold pset. destruct (String.eqb_spec (pd_path (pt_desc x)) path) as [E|]; [|reflexivity]. exfalso. apply H. now left.
Qed.
Lemma probe_disk_in xs : forall q x, NoDup (map (fun x => pd_path (pt_desc x)) xs) -> In x xs -> probe_disk xs q (pd_path (pt_desc x)) = Some (pt_file x).
Proof.
  induction xs as [|y l IH]; intros q x Hn Hin; [destruct Hin|]. unfold probe_disk. cbn [fold_left]. fold (probe_disk l (pset q (pd_path (pt_desc y)) (pt_file y))). inversion_clear Hn as [|? ? Ny Nl].
  destruct Hin as [->|Hin]; [|now apply IH]. rewrite probe_disk_other by exact Ny. unfold pset. now rewrite String.eqb_refl.
Qed.
Lemma all_written m D probes xs xs2 calls q : mesh_setup m D -> Forall (probe_usable m) probes -> NoDup (map pd_path probes) ->
  mapM (probe_init m D) probes = Ok xs -> Forall2 (fun x x2 => pfold m D calls x = Ok x2) xs xs2 -> probes_written m D probes calls q (probe_disk xs2 q).
Proof.
  intros Hs Hu Hn Ei Hf. apply mapM_Forall2 in Ei.
  assert (A : Forall2 (fun p x2 => pt_desc x2 = p /\ probe_file m D p calls (pt_file x2)) probes xs2).
  { clear Hn. revert xs2 Hf. induction Ei as [|p x l lx Ep Ei IH]; intros xs2 Hf; inversion Hf as [|xa x2 la l2 E2 Hf']; subst; constructor.
    - inversion_clear Hu as [|? ? Hp _]. destruct (probe_run m D p Hs Hp) as (x0 & E0 & _ & Hc). rewrite Ep in E0. injection E0 as <-. destruct (Hc calls) as (x' & E' & D' & F'). rewrite E2 in E'. injection E' as <-. auto.
    - apply IH; [now inversion_clear Hu|exact Hf']. }
  assert (P : map (fun x => pd_path (pt_desc x)) xs2 = map pd_path probes).
  { clear -A. induction A as [|p x l lx [Ep _] A IH]; [reflexivity|]. cbn [map]. rewrite Ep, IH. reflexivity. }
  split.
  - intros p Hp. assert (Q : exists x2, In x2 xs2 /\ pt_desc x2 = p /\ probe_file m D p calls (pt_file x2)).
    { clear -A Hp. induction A as [|p' x l lx Ep A IH]; [destruct Hp|]. destruct Hp as [->|Hp]; [exists x; split; [now left|auto]|]. destruct (IH Hp) as (x2 & H & H'). exists x2. split; [now right|auto]. }
    destruct Q as (x2 & Hx & <- & F2). exists (pt_file x2). split; [|exact F2]. apply probe_disk_in; [now rewrite P|exact Hx].
  - intros path H. apply probe_disk_other. now rewrite P.
Qed.

(** * Records at distinct times *)
Definition apart (dt : R) (a b : call) : Prop := call_time a + dt <= call_time b.
Lemma selects_sorted (P : call -> Prop) (Rel : call -> call -> Prop) l s : selects P l s -> Sorted.StronglySorted Rel l -> Sorted.StronglySorted Rel s.
Proof.
  induction 1 as [|a l s Ha Hsel IH|a l s Ha Hsel IH]; intros H; [constructor| |]; inversion_clear H as [|? ? Hl Hall]; [|auto].
  constructor; [auto|]. rewrite Forall_forall in *. intros b Hb. apply Hall. now destruct (selects_In _ _ _ _ Hsel Hb).
Qed.
Lemma sorted_nth {A} (Rel : A -> A -> Prop) l : Sorted.StronglySorted Rel l -> forall i j a b, (i < j)%Z -> nthZ l i = Some a -> nthZ l j = Some b -> Rel a b.
Proof.
  induction 1 as [|x l Hl IH Hall]; intros i j a b Hij Ha Hb; pose proof (nthZ_Some_range _ _ _ Ha) as Ra; pose proof (nthZ_Some_range _ _ _ Hb) as Rb; [cbn in Ra; lia|].
  rewrite nthZ_cons_pos in Hb by lia. destruct (Z.eq_dec i 0) as [->|].
  - injection Ha as <-. rewrite Forall_forall in Hall. apply Hall. eapply nthZ_In; eauto.
  - rewrite nthZ_cons_pos in Ha by lia. apply (IH (i - 1)%Z (j - 1)%Z); auto. lia.
Qed.
Lemma nth_sorted {A} (Rel : A -> A -> Prop) l : (forall i j a b, (i < j)%Z -> nthZ l i = Some a -> nthZ l j = Some b -> Rel a b) -> Sorted.StronglySorted Rel l.
Proof.
  induction l as [|x l IH]; intros H; constructor.
  - apply IH. intros i j a b Hij Ha Hb. pose proof (nthZ_Some_range _ _ _ Ha). apply (H (i + 1)%Z (j + 1)%Z); [lia| |]; rewrite nthZ_cons_pos by lia.
    + now replace (i + 1 - 1)%Z with i by lia.
    + now replace (j + 1 - 1)%Z with j by lia.
  - rewrite Forall_forall. intros b Hb. apply In_nthZ in Hb. destruct Hb as (j & Hj & Ej). apply (H 0%Z (j + 1)%Z); [lia|reflexivity|]. rewrite nthZ_cons_pos by lia. now replace (j + 1 - 1)%Z with j by lia.
Qed.
Lemma history_apart {St} step ite tm dt s1 n (hist : list St) s2 (obs : St -> call) : 0 <= dt -> (forall s, call_time (obs s) = tm s) ->
  history step ite tm dt s1 n hist s2 -> Sorted.StronglySorted (apart dt) (map obs hist).
Proof.
  intros Hdt Ho (_ & _ & _ & H). apply nth_sorted. intros i j a b Hij Ha Hb.
  rewrite nthZ_map in Ha, Hb. destruct (nthZ hist i) as [sa|] eqn:Ea; [|discriminate]. destruct (nthZ hist j) as [sb|] eqn:Eb; [|discriminate]. cbn in Ha, Hb. injection Ha as <-. injection Hb as <-.
  unfold apart. rewrite !Ho. destruct (H _ _ Ea) as [_ ->]. destruct (H _ _ Eb) as [_ ->].
  assert (IZR (i + 1) + 1 <= IZR (j + 1)) by (rewrite <- plus_IZR; apply IZR_le; lia). nra.
Qed.
(** The times of the records are times of scheduled calls, in order. *)
Lemma due_apart m D p dt sel w records : 0 < dt -> Sorted.StronglySorted (apart dt) sel -> due_records m D p sel w records ->
  forall i j a b, (i < j)%Z -> nthZ records i = Some a -> nthZ records j = Some b -> pr_time a + dt <= pr_time b.
Proof.
  intros Hdt Hs (H0 & H1) i j a b Hij Ha Hb. pose proof (nthZ_Some_range _ _ _ Ha) as Ra.
  destruct (Z.eq_dec (pd_nsum p) 0) as [E|E].
  - rewrite (H0 E) in Ha, Hb. rewrite !nthZ_map in Ha, Hb. destruct (nthZ sel i) as [ca|] eqn:Ea; [|discriminate]. destruct (nthZ sel j) as [cb|] eqn:Eb; [|discriminate].
    cbn in Ha, Hb. injection Ha as <-. injection Hb as <-. cbn [pr_time]. exact (sorted_nth _ _ Hs i j _ _ Hij Ea Eb).
  - destruct (H1 E) as (_ & Hr). set (k := Z.abs (pd_nsum p)) in *. assert (Hk : (0 < k)%Z) by (unfold k; lia).
    destruct (Hr _ _ Ha) as (_ & (sa & Esa & ->) & _). destruct (Hr _ _ Hb) as (_ & (sb & Esb & ->) & _). rewrite nthZ_map in Esa, Esb.
    destruct (nthZ sel (i * k + k - 1)) as [ca|] eqn:Ea; [|discriminate]. destruct (nthZ sel (j * k + k - 1)) as [cb|] eqn:Eb; [|discriminate].
    cbn in Esa, Esb. injection Esa as <-. injection Esb as <-. cbn [fst]. apply (sorted_nth _ _ Hs (i * k + k - 1)%Z (j * k + k - 1)%Z _ _); auto. nia.
Qed.
Lemma records_kept m D p dt calls F sel w : mesh_setup m D -> 1 / 1000000 < dt -> Sorted.StronglySorted (apart dt) calls -> pd_kind p = VOLUME -> pd_hdf5 p = true ->
  probe_file m D p calls F -> selects (scheduled (pd_conf p)) calls sel ->
  (forall n t U P, In (n, t, U, P) sel -> field_values m D (pc_field (pd_conf p)) U P (w (n, t, U, P))) ->
  exists records sets, due_records m D p sel w records /\ F = Hdf5 sets /\
    forall r, In r records -> sets (record_name (pc_field (pd_conf p)) (pr_time r)) = Some (HReals (pr_data r) (pr_count r)).
Proof.
  intros Hs Hdt Hc Ek Eh HF Hsel Hw. specialize (HF sel w Hsel Hw). rewrite Ek, Eh in HF. destruct HF as (records & Hd & sets & EF & (_ & _ & Hk & _)). exists records, sets. split; [exact Hd|]. split; [exact EF|].
  intros r Hr. apply In_nthZ in Hr. destruct Hr as (j & _ & Ej). apply (Hk j r Ej). intros i r' Hij Ei E. apply record_name_close in E.
  pose proof (due_apart m D p dt sel w records ltac:(lra) (selects_sorted _ _ _ _ Hsel Hc) Hd j i _ _ Hij Ej Ei) as X. unfold Rabs in E. destruct (Rcase_abs _) in E; lra.
Qed.

(** * The programs with bodies *)
Section Bodies.
Context {Ops St : Type} (init : res (Ops * St)) (ite : St -> Z) (tm : St -> R) (dt : R) (wsol : Ops -> string -> St -> list fsop)
  (rres : Ops -> string -> disk -> St -> res St) (step : Ops -> St -> res St) (write : Ops -> St -> disk -> res (list fsop * list R)) (obs : St -> call)
  (conf : ioconf) (m : mesh) (D : dec) (probes : list pdesc).
Hypothesis Hstep : forall IO s s', step IO s = Ok s' -> ite s' = (ite s + 1)%Z /\ tm s' = tm s + dt.
Hypothesis Hinit : forall IO s, init = Ok (IO, s) -> ite s = c_nstart conf.
Hypothesis Hread : forall IO p d s s', rres IO p d s = Ok s' -> ite s' = ite s.
Hypotheses (Hs : mesh_setup m D) (Hu : Forall (probe_usable m) probes).
Definition b_main (fuel : nat) (d : disk) : res (option (St * disk * list (list R))) :=
  do (IO, s0) <- init;
  let d1 := run_ops (f_init_ops m conf) d in
  do (s1, w) <- io_initial_with ite (wsol IO) (rres IO) conf s0 d1;
  f_drive fuel ite conf (step IO) (write IO) s1 (run_ops w d1).
Definition b_main_p (fuel : nat) (d : disk) (q : pdisk) : res (option (St * disk * list (list R) * pdisk)) :=
  do (IO, s0) <- init;
  do xs <- mapM (probe_init m D) probes;
  let d1 := run_ops (f_init_ops m conf) d in
  do (s1, w) <- io_initial_with ite (wsol IO) (rres IO) conf s0 d1;
  do r <- p_loop fuel ite conf m D (step IO) (write IO) obs s1 (run_ops w d1) xs;
  Ok (match r with Some (s2, d2, ls, xs2) => Some (s2, d2, ls, probe_disk xs2 q) | None => None end).
Lemma b_same fuel d q s2 d2 ls : b_main fuel d = Ok (Some (s2, d2, ls)) <-> exists q2, b_main_p fuel d q = Ok (Some (s2, d2, ls, q2)).
Proof.
  clear Hinit Hread. unfold b_main, b_main_p. split.
  - intros H. apply bind_ok_inv in H. destruct H as ([IO s0] & -> & H). cbn [bind]. cbv zeta in *. apply bind_ok_inv in H. destruct H as ([s1 w] & E1 & H). rewrite f_drive_plain in H.
    destruct (inits_last m D probes Hs Hu) as (xs & -> & Hx). cbn [bind]. rewrite E1. cbn [bind].
    destruct (p_loop_total ite conf m D (step IO) _ obs fuel _ _ xs _ _ _ Hx H) as (xs2 & E3). rewrite E3. cbn [bind]. eauto.
  - intros (q2 & H). apply bind_ok_inv in H. destruct H as ([IO s0] & -> & H). cbn [bind]. cbv zeta in *. apply bind_ok_inv in H. destruct H as (xs & _ & H).
    apply bind_ok_inv in H. destruct H as ([s1 w] & E1 & H). rewrite E1. cbn [bind].
    apply bind_ok_inv in H. destruct H as (r & E2 & H). destruct r as [[[[sa da] tra] xsa]|]; [|discriminate]. injection H as <- <- <- <-.
    destruct (p_loop_inv ite tm dt conf m D (step IO) _ obs (Hstep IO) fuel _ _ _ _ _ _ _ E2) as (E3 & _). rewrite f_drive_plain. exact E3.
Qed.
Lemma b_written fuel d q s2 d2 ls q2 : NoDup (map pd_path probes) -> b_main_p fuel d q = Ok (Some (s2, d2, ls, q2)) ->
  exists IO s0 s1 w hist, init = Ok (IO, s0) /\ io_initial_with ite (wsol IO) (rres IO) conf s0 (run_ops (f_init_ops m conf) d) = Ok (s1, w) /\ ite s1 = c_nstart conf /\
    history (step IO) ite tm dt s1 (Z.max 0 (c_nt conf)) hist s2 /\ probes_written m D probes (map obs hist) q q2.
Proof.
  intros Hn H. unfold b_main_p in H. apply bind_ok_inv in H. destruct H as ([IO s0] & EI & H). cbv zeta in *. apply bind_ok_inv in H. destruct H as (xs & Ex & H).
  apply bind_ok_inv in H. destruct H as ([s1 w] & E1 & H). apply bind_ok_inv in H. destruct H as (r & E2 & H). destruct r as [[[[sa da] tra] xsa]|]; [|discriminate]. injection H as <- <- <- <-.
  destruct (p_loop_inv ite tm dt conf m D (step IO) _ obs (Hstep IO) fuel _ _ _ _ _ _ _ E2) as (_ & hist & Hh & Hf).
  assert (Hi : ite s1 = c_nstart conf).
  { pose proof (Hinit _ _ EI) as Hi. unfold io_initial_with in E1. destruct (ite s0 =? 0)%Z; [injection E1 as <- <-; exact Hi|].
    apply bind_ok_inv in E1. destruct E1 as (s' & E & E1). injection E1 as <- <-. apply Hread in E. lia. }
  exists IO, s0, s1, w, hist. split; [exact EI|]. split; [exact E1|]. split; [exact Hi|]. split.
  - rewrite Hi in Hh. replace (Z.max 0 (c_nt conf)) with (Z.max 0 (c_nstart conf + c_nt conf - c_nstart conf))%Z by lia. exact Hh.
  - exact (all_written m D probes xs xsa (map obs hist) q Hs Hu Hn Ex Hf).
Qed.
End Bodies.

(** * The couple (pressure, forces) *)
Lemma nest_second size l0 l1 : (0 < size)%Z -> (0 <= l0 0)%Z -> (0 < l1 0)%Z -> nthZ (nest_layout size l0 l1) (l0 0%Z) = Some (1, 0)%Z.
Proof.
  intros H H0 H1. unfold nest_layout. rewrite (zrange_cons 0 size) by lia. cbn [flat_map]. rewrite !isum_nil by lia. rewrite !Z.add_0_l.
  rewrite <- app_assoc. rewrite (zrange_cons 0 (l1 0%Z)) by lia. cbn [map app]. 
  set (A := map _ (zrange 0 (l0 0%Z))). replace (l0 0%Z) with (lenZ A) by (unfold A; rewrite lenZ_map, zrange_lenZ; lia).
  unfold nthZ, lenZ. destruct (Z.ltb_spec (Z.of_nat (length A)) 0); [lia|]. rewrite Nat2Z.id, nth_error_app2 by lia. rewrite Nat.sub_diag. reflexivity.
Qed.
Lemma pair_eqb_iff : forall a b, pair_eqb a b = true <-> a = b.
Proof. intros [a1 a2] [b1 b2]. unfold pair_eqb. cbn. rewrite andb_true_iff, !Z.eqb_eq. split; [intros [-> ->]; reflexivity|intros H; injection H as -> ->; auto]. Qed.
Lemma couple_at Lay b k v i : NoDup Lay -> nthZ Lay i = Some (b, k) -> nest_sub Lay b v k = v i.
Proof.
  intros Hn Hi. unfold nest_sub. destruct (findpos pair_eqb (b, k) Lay 0) as [j|] eqn:E.
  - destruct (findpos_Some _ pair_eqb_iff _ _ _ _ E) as [_ B]. rewrite Z.sub_0_r in B. f_equal. eapply nthZ_NoDup_inj; eauto.
  - apply (findpos_None _ pair_eqb_iff) in E. exfalso. apply E. eapply nthZ_In; eauto.
Qed.

Lemma selects_kept {A} (P : A -> Prop) l s : selects P l s -> forall a, In a l -> P a -> In a s.
Proof. induction 1 as [|b l s Hb Hl IH|b l s Hb Hl IH]; intros a Hin Ha; [destruct Hin| |]; (destruct Hin as [->|Hin]; [|try right; auto]); [now left|contradiction]. Qed.

(** * Calls with the same fields *)
Definition call_step (cl : call) : Z := let '(n, _, _, _) := cl in n.
Definition same_field (m : mesh) (D : dec) (f : Z) (a b : call) : Prop :=
  let '(n, t, U, y) := a in let '(n', t', U', y') := b in n = n' /\ t = t' /\ forall w, field_values m D f U' y' w -> field_values m D f U y w.
Definition at_step (calls : list call) (n : Z) : option call := find (fun cl => (call_step cl =? n)%Z) calls.
Lemma at_step_In calls : NoDup (map call_step calls) -> forall cl, In cl calls -> at_step calls (call_step cl) = Some cl.
Proof.
  induction calls as [|c l IH]; intros Hn cl Hin; [destruct Hin|]. cbn [map] in Hn. inversion_clear Hn as [|? ? Nc Nl]. unfold at_step. cbn [find].
  destruct (Z.eqb_spec (call_step c) (call_step cl)) as [E|E].
  - destruct Hin as [->|Hin]; [reflexivity|]. exfalso. apply Nc. rewrite E. now apply in_map.
  - destruct Hin as [->|Hin]; [congruence|]. now apply IH.
Qed.
Lemma same_selects m D f c l1 l2 : Forall2 (same_field m D f) l1 l2 -> forall s2, selects (scheduled c) l2 s2 -> exists s1, selects (scheduled c) l1 s1 /\ Forall2 (same_field m D f) s1 s2.
Proof.
  induction 1 as [|a b la lb Hab Hl IH]; intros s2 H; inversion H as [|b' l' s' Hb Hs' E1 E2|b' l' s' Hb Hs' E1 E2]; subst.
  - exists []. split; constructor.
  - destruct (IH _ Hs') as (s1 & A & B). exists (a :: s1). split; [|now constructor]. constructor; [|exact A].
    destruct a as [[[n t] U] y], b as [[[n' t'] U'] y']. destruct Hab as (-> & -> & _). exact Hb.
  - destruct (IH _ Hs') as (s1 & A & B). exists s1. split; [|exact B]. apply sel_skip; [|exact A].
    destruct a as [[[n t] U] y], b as [[[n' t'] U'] y']. destruct Hab as (-> & -> & _). exact Hb.
Qed.
Lemma probe_file_ext m D p l1 l2 F : NoDup (map call_step l2) -> Forall2 (same_field m D (pc_field (pd_conf p))) l1 l2 -> probe_file m D p l1 F -> probe_file m D p l2 F.
Proof.
  intros Hn Hl H s2 w2 Hs2 Hw2. set (f := pc_field (pd_conf p)) in *. destruct (same_selects m D f _ _ _ Hl _ Hs2) as (s1 & Hs1 & HF).
  set (w1 := fun cl : call => match at_step l2 (call_step cl) with Some b => w2 b | None => fun _ => 0 end).
  assert (A : forall b, In b s2 -> In b l2) by (intros b Hb; exact (proj1 (selects_In _ _ _ _ Hs2 Hb))).
  assert (B : Forall2 (fun a b => call_time a = call_time b /\ w1 a = w2 b) s1 s2).
  { clear Hs1 Hs2 Hw2. induction HF as [|a b la lb Hab HF IH]; constructor; [|apply IH; intros b' Hb'; apply A; now right].
    unfold w1. assert (E : call_step a = call_step b) by (destruct a as [[[n t] U] y], b as [[[n' t'] U'] y']; exact (proj1 Hab)).
    rewrite E, (at_step_In l2 Hn b (A b (or_introl eq_refl))). split; [|reflexivity]. destruct a as [[[n t] U] y], b as [[[n' t'] U'] y']. exact (proj1 (proj2 Hab)). }
  specialize (H s1 w1 Hs1). fold f in H. assert (C : forall n t U P, In (n, t, U, P) s1 -> field_values m D f U P (w1 (n, t, U, P))).
  { intros n t U P Hin. assert (X : exists b, In b s2 /\ same_field m D f (n, t, U, P) b /\ w1 (n, t, U, P) = w2 b).
    { clear -HF B Hin. induction HF as [|a b la lb Hab HF IH]; [destruct Hin|]. inversion B as [|a' b' la' lb' [_ E] B']; subst. destruct Hin as [->|Hin].
      - exists b. split; [now left|]. split; [exact Hab|exact E].
      - destruct (IH B' Hin) as (b' & ? & ?). exists b'. split; [now right|assumption]. }
    destruct X as ([[[n' t'] U'] y'] & Hb & (_ & _ & Hf) & E). rewrite E. apply Hf. now apply Hw2. }
  specialize (H C).
  assert (Es : forall X : Type, forall g : R -> (pt -> R) -> X, map (fun cl => g (call_time cl) (w1 cl)) s1 = map (fun cl => g (call_time cl) (w2 cl)) s2).
  { intros X g. clear -B. induction B as [|a b la lb [E1 E2] B IH]; [reflexivity|]. cbn [map]. now rewrite E1, E2, IH. }
  assert (Ed : forall records, due_records m D p s1 w1 records -> due_records m D p s2 w2 records).
  { intros records. unfold due_records. rewrite (Es _ (fun t w => (t, map w (probe_points m D p)))). auto. }
  assert (Ep : forall lines, Forall2 (fun cl tv => fst tv = call_time cl /\ interpolant m f (probe_ext m f (w1 cl)) (loc_of p) (snd tv)) s1 lines ->
    Forall2 (fun cl tv => fst tv = call_time cl /\ interpolant m f (probe_ext m f (w2 cl)) (loc_of p) (snd tv)) s2 lines).
  { clear -B. induction B as [|a b la lb [E1 E2] B IH]; intros lines H; inversion H as [|a' tv la' l' [H1 H2] H3]; subst; constructor; [|auto]. rewrite <- E1, <- E2. auto. }
  destruct (pd_kind p);
    (destruct H as (lines & E & H1 & H2); exists lines; split; [exact E|]; split; [intros Hin; apply Ep; now apply H1|exact H2]) ||
    (destruct H as (records & Hd & Hrest); exists records; split; [auto|exact Hrest]).
Qed.
Lemma history_steps {St} step ite tm dt s1 n (hist : list St) s2 (obs : St -> call) : (forall s, call_step (obs s) = ite s) ->
  history step ite tm dt s1 n hist s2 -> NoDup (map call_step (map obs hist)).
Proof.
  intros Ho (_ & _ & _ & H). rewrite map_map. assert (E : map (fun x => call_step (obs x)) hist = map (fun k => ite s1 + k + 1)%Z (zrange 0 (lenZ hist))).
  { apply nthZ_ext; [rewrite !lenZ_map, zrange_lenZ; [lia|]; unfold lenZ; lia|]. intros i Hi. rewrite lenZ_map in Hi. rewrite !nthZ_map. destruct (nthZ_in_range hist i Hi) as [s E]. rewrite E.
    rewrite nthZ_zrange by lia. cbn. rewrite Ho. destruct (H _ _ E) as [-> _]. f_equal. }
  rewrite E. apply FinFun.Injective_map_NoDup; [intros a b; lia|apply zrange_NoDup].
Qed.

Lemma couple_NoDup m D bodies : mesh_setup m D -> bodies_ok m D bodies -> NoDup (nest_layout (nranks D) (pressure_l D) (bp_nLclAllProcs (m_dim m) (map fst bodies))).
Proof.
  intros Hs Hb. apply nest_NoDup; [intros; apply (pressure_l_nonneg m D); [now apply setup_facts|assumption]|intros; now apply (forces_nonneg m D)].
Qed.
Lemma layout_pressure m D : mesh_setup m D -> lenZ (field_layout D 3) = isum (pressure_l D) 0 (nranks D).
Proof.
  intros Hs. pose proof (setup_facts _ _ Hs) as F. pose proof (mf_dec _ _ F 3%Z (or_intror eq_refl)) as Hd3. unfold field_layout. rewrite flat_map_lenZ. apply isum_ext. intros r Hr.
  apply (local_points_lenZ D (m_n m 3)); auto.
Qed.
Lemma couple_single m D bodies v id y : mesh_setup m D -> bodies_ok m D bodies -> nranks D = 1%Z -> nthZ (field_layout D 3) id = Some y ->
  nest_sub (nest_layout (nranks D) (pressure_l D) (bp_nLclAllProcs (m_dim m) (map fst bodies))) 0 v id = v id.
Proof.
  intros Hs Hb H1 Hy. apply couple_at; [now apply couple_NoDup|]. apply nthZ_Some_range in Hy. rewrite layout_pressure with (m := m) in Hy by exact Hs. rewrite H1 in *.
  change 1%Z with (0 + 1)%Z in Hy. rewrite isum_snoc, isum_nil in Hy by lia. unfold nest_layout. change 1%Z with (0 + 1)%Z. rewrite (zrange_cons 0 (0 + 1)) by lia. cbn [flat_map].
  rewrite isum_nil by lia. rewrite <- app_assoc. unfold nthZ. destruct (Z.ltb_spec id 0); [lia|]. rewrite nth_error_app1.
  - rewrite nth_error_map. pose proof (nthZ_zrange 0 (0 + pressure_l D 0) id ltac:(lia)) as E. unfold nthZ in E. destruct (Z.ltb_spec id 0); [lia|]. rewrite E. reflexivity.
  - rewrite map_length. pose proof (zrange_lenZ 0 (0 + pressure_l D 0) ltac:(lia)) as E. unfold lenZ in E. lia.
Qed.
(** The first pressure point of the second rank has the number of the first
    force of the first rank in the couple. *)
Lemma couple_overlap m D bodies v : mesh_setup m D -> bodies_ok m D bodies -> (0 < bp_nLclAllProcs (m_dim m) (map fst bodies) 0)%Z ->
  nest_sub (nest_layout (nranks D) (pressure_l D) (bp_nLclAllProcs (m_dim m) (map fst bodies))) 1 v 0%Z = v (pressure_l D 0%Z).
Proof.
  intros Hs Hb H0. apply couple_at; [now apply couple_NoDup|]. apply nest_second; [pose proof (nranks_pos _ _ _ Hb); lia| |exact H0].
  pose proof (rank0_pressure m D Hs). lia.
Qed.
