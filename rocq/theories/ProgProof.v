(** Proofs about the program: a documented configuration is read as documented. *)
From Coq Require Import Ascii String Permutation ZifyBool.
From Verif Require Import Prelude ZSum RSum TypesModel GridModel GridSpec GridProof IndexModel IndexSpec BoundaryModel BoundarySpec BoundaryProof
  OperatorModel OperatorSpec MatModel BnModel SolutionModel ConvModel DeltaModel ProbeModel NSModel NameModel DriverModel
  BodyText ConfigModel ConfigSpec ConfigProof ConfigSetup ConfigInit ConfigUse ProgModel ProgSpec.
Local Open Scope R_scope.
Local Open Scope string_scope.

Lemma real_or_read rd l k dflt x : real_entry_or rd l k dflt x -> as_real_or rd (assoc l k) dflt = x.
Proof.
  intros [[E ->]|(l' & s & E0 & E & Es)]; [now rewrite E|]. injection E0 as <-. rewrite E. cbn. now rewrite Es.
Qed.
Lemma int_or_read rd l k dflt x : int_entry_or rd l k dflt x -> as_int_or rd (assoc l k) dflt = x.
Proof.
  intros [[E ->]|(l' & s & E0 & E & Es)]; [now rewrite E|]. injection E0 as <-. rewrite E. cbn. now rewrite Es.
Qed.
Lemma word_or_read l k dflt s : word_entry_or l k dflt s -> as_string_or (assoc l k) dflt = s.
Proof. intros [[E ->]|(l' & E0 & E)]; [now rewrite E|]. injection E0 as <-. now rewrite E. Qed.
Lemma real_read rd l k x : real_entry rd (YMap l) k x -> as_real rd (assoc l k) = Ok x.
Proof. intros (l' & s & E0 & E & Es). injection E0 as <-. rewrite E. cbn. now rewrite Es. Qed.
Lemma int_read rd l k x : int_entry rd (YMap l) k x -> as_int rd (assoc l k) = Ok x.
Proof. intros (l' & s & E0 & E & Es). injection E0 as <-. rewrite E. cbn. now rewrite Es. Qed.
Lemma word_read l k s : word_entry (YMap l) k s -> assoc l k = Some (YScalar s).
Proof. intros (l' & E0 & E). now injection E0 as <-. Qed.

(** * Schemes *)
Lemma scheme_read st ps name w : assoc st "parameters" = Some (YMap ps) -> word_entry (YMap ps) name w ->
  createTimeIntegration_node name (Some (YMap st)) = createTimeIntegration name (Some (fun k => if String.eqb k name then Some w else None)).
Proof.
  intros E1 E2. apply word_read in E2. unfold createTimeIntegration_node. cbn [yget bind]. rewrite E1. cbn [yget bind]. rewrite E2. reflexivity.
Qed.
Lemma convection_read st ps w c : assoc st "parameters" = Some (YMap ps) -> word_entry (YMap ps) "convection" w ->
  In (w, c) convection_weights -> exists s, createTimeIntegration_node "convection" (Some (YMap st)) = Ok s /\ sc_explicit s = c.
Proof.
  intros E1 E2 Hi. rewrite (scheme_read _ _ _ _ E1 E2). cbn in Hi. destruct Hi as [Hi|[Hi|[]]]; injection Hi as <- <-; cbn;
    eexists; (split; [reflexivity|]); cbn; [reflexivity|]. apply f_equal2; [lra|]. apply f_equal2; [lra|reflexivity].
Qed.
Lemma diffusion_read st ps w a c : assoc st "parameters" = Some (YMap ps) -> word_entry (YMap ps) "diffusion" w ->
  In (w, (a, c)) diffusion_weights ->
  exists s, createTimeIntegration_node "diffusion" (Some (YMap st)) = Ok s /\ sc_implicit s = a /\ sc_explicit s = c.
Proof.
  intros E1 E2 Hi. rewrite (scheme_read _ _ _ _ E1 E2). cbn in Hi. destruct Hi as [Hi|[Hi|[Hi|[]]]]; injection Hi as <- <- <-; cbn;
    eexists; (split; [reflexivity|]); cbn; try (split; reflexivity). split; [lra|]. apply f_equal2; [lra|reflexivity].
Qed.

(** * Linear solvers *)
Lemma solver_read amgx load st ps dir name s : assoc st "parameters" = Some (YMap ps) -> word_entry (YMap st) "directory" dir ->
  describes_solver amgx load ps dir name s -> createLinSolver amgx load name (Some (YMap st)) = Ok (Some s).
Proof.
  intros E1 E2 (sec & ty & E3 & Ht & path & Hp & Hs). apply word_read in E2. unfold createLinSolver. cbn [yget bind].
  rewrite E1. cbn [yget bind]. rewrite E3. cbn [yget bind]. rewrite (word_or_read _ _ _ _ Ht).
  match goal with |- bind ?X _ = _ => assert (Ep : X = Ok path) end.
  { destruct Hp as [[E ->]|[(c & E & ->)|(c & E & Hn & Ha & ->)]].
    - rewrite E. reflexivity.
    - apply word_read in E. rewrite E. cbn. reflexivity.
    - apply word_read in E. rewrite E. cbn [as_string_or]. rewrite Ha. destruct (String.eqb_spec c "None"); [contradiction|].
      cbn [negb andb yget bind]. rewrite E2. reflexivity. }
  rewrite Ep. cbn [bind]. destruct Hs as [(-> & -> & Hl)|(-> & -> & ->)]; cbn.
  - unfold ctor, ksp_init. destruct (String.eqb_spec path "None"); [reflexivity|]. destruct Hl as [Hl|Hl]; [contradiction|]. rewrite Hl. reflexivity.
  - reflexivity.
Qed.

(** * Probes *)
Lemma field_read w f : In (w, f) doc_fields -> decode_field w = f.
Proof. intros H. pose proof (doc_fields_read w f H) as E. exact E. Qed.
Lemma dir_read w d : In (w, d) doc_directions -> decode_dir w = d.
Proof. intros H. exact (doc_dirs_read w d H). Qed.

Lemma box_read rd bx dirs lo0 hi0 : describes_box rd bx dirs -> NoDup (map (fun e => fst (fst e)) dirs) ->
  exists lo hi, foldM (fun (b : (Z -> R) * (Z -> R)) (kv : string * yaml) =>
               let d := decode_dir (fst kv) in
               do e0 <- yidx (Some (snd kv)) 0; do a <- as_real rd e0;
               do e1 <- yidx (Some (snd kv)) 1; do c <- as_real rd e1;
               Ok ((fun i => if (i =? d)%Z then a else fst b i), (fun i => if (i =? d)%Z then c else snd b i))) bx (lo0, hi0) = Ok (lo, hi) /\
    (forall w a b d, In (w, a, b) dirs -> In (w, d) doc_directions -> lo d = a /\ hi d = b) /\
    (forall w d, ~ In w (map (fun e => fst (fst e)) dirs) -> In (w, d) doc_directions -> lo d = lo0 d /\ hi d = hi0 d).
Proof.
  intros H. revert lo0 hi0. induction H as [|kv [[w a] b] bx dirs (sa & sb & -> & Hw & Ea & Eb) HF IH]; intros lo0 hi0 Hn.
  - exists lo0, hi0. split; [reflexivity|]. split; [intros ? ? ? ? []|auto].
  - cbn [foldM fst snd]. cbn [yidx]. change (nthZ [YScalar sa; YScalar sb] 0) with (Some (YScalar sa)).
    change (nthZ [YScalar sa; YScalar sb] 1) with (Some (YScalar sb)). cbn [bind as_real as_string]. rewrite Ea. cbn [bind]. rewrite Eb. cbn [bind].
    inversion Hn as [|? ? Hni Hn']; subst. destruct (IH (fun i => if (i =? decode_dir w)%Z then a else lo0 i) (fun i => if (i =? decode_dir w)%Z then b else hi0 i) Hn') as (lo & hi & E & A & B).
    exists lo, hi. split; [exact E|]. split.
    + intros w' a' b' d [Hi|Hi] Hd; [|eapply A; eauto]. injection Hi as <- <- <-. cbn [fst] in Hni. destruct (B w d Hni Hd) as [-> ->].
      rewrite (dir_read _ _ Hd), Z.eqb_refl. auto.
    + intros w' d Hni' Hd. cbn [map fst In] in Hni'. destruct (B w' d ltac:(tauto) Hd) as [-> ->].
      assert (Hx : decode_dir w <> d).
      { cbn in Hw, Hd. intros Hx. apply Hni'. left. destruct Hw as [<-|[<-|[<-|[]]]]; destruct Hd as [Hd|[Hd|[Hd|[]]]]; injection Hd as <- <-; cbn in Hx; try discriminate; reflexivity. }
      destruct (Z.eqb_spec d (decode_dir w)); [congruence|]. auto.
Qed.

Lemma box_read' rd bx dirs : describes_box rd bx dirs -> NoDup (map (fun e => fst (fst e)) dirs) ->
  exists lo hi, read_box rd (Some (YMap bx)) = Ok (lo, hi) /\
    forall w a b d, In (w, a, b) dirs -> In (w, d) doc_directions -> lo d = a /\ hi d = b.
Proof.
  intros H1 H2. destruct (box_read rd bx dirs (fun _ => 0) (fun _ => 0) H1 H2) as (lo & hi & E & A & _). exists lo, hi. split; [exact E|exact A].
Qed.

Lemma F2_nthZ_r {A B} (P : A -> B -> Prop) l l' i b : Forall2 P l l' -> nthZ l' i = Some b -> exists a, nthZ l i = Some a /\ P a b.
Proof.
  intros H. revert i. induction H as [|x y l l' Hxy H IH]; intros i E; [apply nthZ_Some_range in E; change (lenZ (@nil B)) with 0%Z in E; lia|].
  pose proof (nthZ_Some_range _ _ _ E) as Hr. destruct (Z.eq_dec i 0) as [->|Hi].
  - rewrite nthZ_cons_0 in E. injection E as <-. exists x. now rewrite nthZ_cons_0.
  - rewrite nthZ_cons_pos in E by lia. rewrite nthZ_cons_pos by lia. auto.
Qed.

Lemma loc_read rd ws xs dim : Forall2 (fun w x => to_real rd w = Some x) ws xs -> lenZ xs = dim ->
  mapM (fun d => do e <- yidx (Some (YSeq (map YScalar ws))) d; as_real rd e) (zrange 0 dim) = Ok xs.
Proof.
  intros H <-. rewrite <- (map_id xs) at 2. apply map_nth_zrange. intros k x E. destruct (F2_nthZ_r _ _ _ _ _ H E) as (w & Ew & Hw).
  cbn [yidx bind]. rewrite nthZ_map, Ew. cbn [option_map as_real as_string bind]. now rewrite Hw.
Qed.

Lemma probe_read rd dim out l w p : word_entry (YMap l) "path" w -> describes_probe rd dim out (YMap l) p ->
  exists q, createProbe rd dim (Some (YMap (set_key "path" (YScalar (out ++ "/" ++ w)) l))) = Ok q /\ describes_probe rd dim out (YMap l) q.
Proof.
  intros Hw (l' & E0 & Hname & (fw & Hfw & Hf) & (w' & Hw' & Hpath) & Hnm & Hts & Hte & Hk). injection E0 as <-.
  pose proof (word_read _ _ _ Hw) as Ew. pose proof (word_read _ _ _ Hw') as Ew'. rewrite Ew in Ew'. injection Ew' as <-. clear Hw'.
  set (l2 := set_key "path" (YScalar (out ++ "/" ++ w)) l).
  assert (G : forall k, k <> "path" -> assoc l2 k = assoc l k).
  { intros k Hk'. unfold l2. rewrite assoc_set_key. destruct (String.eqb_spec "path" k); [congruence|reflexivity]. }
  assert (Gp : assoc l2 "path" = Some (YScalar (out ++ "/" ++ w))) by (unfold l2; rewrite assoc_set_key; reflexivity).
  assert (Eb : probe_base rd (Some (YMap l2)) = Ok (pd_name p, out ++ "/" ++ w, pd_conf p)).
  { unfold probe_base. cbn [yget bind]. rewrite Gp. rewrite !G by discriminate. rewrite (word_read _ _ _ Hfw). cbn [as_string bind].
    rewrite (word_or_read _ _ _ _ Hname), (int_or_read _ _ _ _ _ Hnm), (real_or_read _ _ _ _ _ Hts), (real_or_read _ _ _ _ _ Hte), (field_read _ _ Hf).
    destruct (pd_conf p). reflexivity. }
  unfold createProbe, createProbe_kind. cbn [yget bind]. rewrite !G by discriminate.
  destruct Hk as [(Ek & Hty & (v & Hv & Hv') & Hat & Hns & (bx & dirs & Ebx & Hbx & Hnd & Hdir))|(Ek & Hty & (ws & Els & Hws & Hlen))].
  - rewrite (word_or_read _ _ _ _ Hty). cbn [decode_probetype map_get str2pt_tab assoc String.eqb Ascii.eqb Bool.eqb bind]. rewrite Eb. cbn [bind fst snd].
    rewrite (word_or_read _ _ _ _ Hv), (real_or_read _ _ _ _ _ Hat), (int_or_read _ _ _ _ _ Hns), Ebx.
    destruct (box_read' rd bx dirs Hbx Hnd) as (lo & hi & E & A). rewrite E. cbn [bind fst snd].
    exists (mkPD VOLUME (pd_name p) (out ++ "/" ++ w) (pd_conf p) (String.eqb v "hdf5") (pd_atol p) (pd_nsum p) lo hi []). split.
    + destruct Hv' as [[-> _]|[-> _]]; reflexivity.
    + exists l. split; [reflexivity|]. cbn. split; [exact Hname|]. split; [exists fw; auto|]. split; [exists w; auto|].
      split; [exact Hnm|]. split; [exact Hts|]. split; [exact Hte|]. left. split; [reflexivity|]. split; [exact Hty|].
      split; [exists v; split; [exact Hv|]; destruct Hv' as [[-> _]|[-> _]]; auto|]. split; [exact Hat|]. split; [exact Hns|].
      exists bx, dirs. auto.
  - rewrite (word_read _ _ _ Hty). cbn [as_string_or decode_probetype map_get str2pt_tab assoc String.eqb Ascii.eqb Bool.eqb bind]. rewrite Eb. cbn [bind fst snd].
    rewrite Els. rewrite (loc_read _ _ _ _ Hws Hlen). cbn [bind].
    eexists. split; [reflexivity|].
    exists l. split; [reflexivity|]. cbn. split; [exact Hname|]. split; [exists fw; auto|]. split; [exists w; auto|].
    split; [exact Hnm|]. split; [exact Hts|]. split; [exact Hte|]. right. split; [reflexivity|]. split; [exact Hty|].
    exists ws. auto.
Qed.

Lemma probes_read rd dim out st probes : describes_probes rd dim out (YMap st) probes ->
  exists qs, create_probes rd dim out (assoc st "probes") = Ok qs /\ describes_probes rd dim out (YMap st) qs.
Proof.
  intros (st' & E0 & H). injection E0 as <-. unfold create_probes. destruct H as [[E ->]|(l & E & H)].
  - rewrite E. exists []. split; [reflexivity|]. exists st. auto.
  - rewrite E. cbn [ysize].
    assert (H' : exists qs, mapM (create_probe_i rd dim out (Some (YSeq l))) (zrange 0 (lenZ l)) = Ok qs /\ Forall2 (describes_probe rd dim out) l qs).
    { assert (X : forall y p, describes_probe rd dim out y p -> exists q,
        (do pa <- yget_mut (Some y) "path"; do path <- as_string pa;
         match Some y with Some (YMap k) => createProbe rd dim (Some (YMap (set_key "path" (YScalar (out ++ "/" ++ path)) k))) | _ => Err EXC end) = Ok q
        /\ describes_probe rd dim out y q).
      { intros y p Hp. pose proof Hp as (k & -> & _ & _ & (w & Hw & _) & _). cbn [yget_mut yget bind]. rewrite (word_read _ _ _ Hw). cbn [as_string bind].
        eapply probe_read; eauto. }
      clear E. assert (Y : exists qs, Forall2 (fun y q => (do pa <- yget_mut (Some y) "path"; do path <- as_string pa;
         match Some y with Some (YMap k) => createProbe rd dim (Some (YMap (set_key "path" (YScalar (out ++ "/" ++ path)) k))) | _ => Err EXC end) = Ok q
        /\ describes_probe rd dim out y q) l qs).
      { clear - H X. induction H as [|y p l ps Hp H IH]; [exists []; constructor|]. destruct IH as (qs & IH). destruct (X y p Hp) as (q & Hq).
        exists (q :: qs). now constructor. }
      destruct Y as (qs & HY). exists qs. split.
      - assert (Ln : lenZ l = lenZ qs) by (clear - HY; induction HY; [reflexivity|rewrite !lenZ_cons; lia]). rewrite Ln.
        rewrite <- (map_id qs) at 2. apply map_nth_zrange. intros k q Eq. destruct (F2_nthZ_r _ _ _ _ _ HY Eq) as (y & Ey & Hy & _).
        unfold create_probe_i. cbn [yidx]. rewrite Ey. cbn [bind]. exact Hy.
      - clear - HY. induction HY as [|y q l qs [_ Hq] HY IH]; constructor; auto. }
    destruct H' as (qs & E' & HF). exists qs. split; [exact E'|]. exists st. split; [reflexivity|]. right. exists l. auto.
Qed.
