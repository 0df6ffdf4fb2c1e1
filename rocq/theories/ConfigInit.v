(** Proofs: the initial conditions. *)
From Coq Require Import Ascii String Permutation.
From Verif Require Import Prelude ZSum RSum TypesModel GridModel GridSpec GridProof MeshProof IndexModel IndexSpec IndexProof
  BoundaryModel BoundarySpec BoundaryProof OperatorModel OperatorSpec OperatorProof SolutionModel
  ConfigModel ConfigSpec ConfigProof ConfigSetup.
Local Open Scope R_scope.
Local Open Scope string_scope.

Section IC.
Variable rd : reader.
Variable lambdify : string -> option (R -> R -> R -> R -> R -> R).
Notation compiled := (fun w e => lambdify w = Some e).
Hypothesis Hzero : lambdify "0" = Some (fun _ _ _ _ _ => 0).

Lemma compile_ok w e : lambdify w = Some e -> compile lambdify w = Ok e.
Proof. intros H. unfold compile. now rewrite H. Qed.

Lemma zr (n : nat) : zrange 0 (Z.of_nat n) = map Z.of_nat (seq 0 n).
Proof.
  unfold zrange. rewrite Z.sub_0_r, Nat2Z.id. apply map_ext. intros. lia.
Qed.

Lemma pressure_part fl (pe : expr) (ls : list (option expr)) :
  ((exists pw, assoc fl "initialPressure" = Some (YScalar pw) /\ compiled pw pe) \/
     (assoc fl "initialPressure" = None /\ pe = fun _ _ _ _ _ => 0)) ->
  (do ip <- yget (Some (YMap fl)) "initialPressure";
   do s <- (match ip with Some _ => as_string ip | None => Ok "0" end);
   do g <- compile lambdify s;
   wr ls 3 (Some g)) = wr ls 3 (Some pe).
Proof.
  intros H. cbn [yget bind]. unfold compile. destruct H as [(pw & -> & E)|[-> ->]]; cbn [as_string bind].
  - rewrite E. reflexivity.
  - rewrite Hzero. reflexivity.
Qed.

Lemma parse_ics_ok y nu vel pe : describes_ics rd compiled y nu vel pe -> (lenZ vel <= 4)%Z ->
  exists L, parseICs lambdify (Some y) = Ok L /\ lenZ L = 4%Z /\ nthZ L 3 = Some (Some pe) /\
    (forall f, (0 <= f < 3)%Z -> nthZ L f = Some (nthZ vel f)).
Proof.
  intros (st & fl & ws & -> & E1 & _ & E2 & F & HP) Hl.
  unfold parseICs. cbn [yget]. rewrite E1. cbn [bind yget]. rewrite E2. cbn [bind ysize].
  match goal with |- context [bind (foldM ?f ?l ?s) _] => set (FF := f) end.
  assert (Hfin : forall ls : list (option expr), lenZ ls = 4%Z ->
     (forall f, (0 <= f < 3)%Z -> nthZ ls f = Some (nthZ vel f)) ->
     exists L, (
       do s <- (match assoc fl "initialPressure" with Some _ => as_string (assoc fl "initialPressure") | None => Ok "0" end);
       do g <- compile lambdify s; wr ls 3 (Some g)) = Ok L /\ lenZ L = 4%Z /\ nthZ L 3 = Some (Some pe) /\
       (forall f, (0 <= f < 3)%Z -> nthZ L f = Some (nthZ vel f))).
  { intros ls Hls Hn. pose proof (pressure_part fl pe ls HP) as E. cbn [yget bind] in E. unfold expr in *. rewrite E. clear E.
    destruct ls as [|a [|b [|c [|d [|]]]]]; try (unfold lenZ in Hls; cbn in Hls; lia).
    eexists. split; [reflexivity|]. split; [reflexivity|]. split; [reflexivity|].
    intros f Hf. rewrite <- Hn by lia. assert (f = 0 \/ f = 1 \/ f = 2)%Z as [->|[->| ->]] by lia; reflexivity. }
  destruct F as [|w0 e0 ws es C0 F]; [|destruct F as [|w1 e1 ws es C1 F]; [|destruct F as [|w2 e2 ws es C2 F];
    [|destruct F as [|w3 e3 ws es C3 F]; [|destruct F as [|w4 e4 ws es C4 F]]]]]; try (unfold lenZ in Hl; cbn [length] in Hl; lia);
    unfold FF; cbn [map].
  - change (zrange 0 (lenZ (@nil yaml))) with (@nil Z). cbn [foldM bind].
    apply Hfin; [reflexivity|]. intros f Hf. assert (f = 0 \/ f = 1 \/ f = 2)%Z as [->|[->| ->]] by lia; reflexivity.
  - change (zrange 0 (lenZ [YScalar w0])) with [0%Z]. cbn [foldM yidx].
    change (nthZ [YScalar w0] 0) with (Some (YScalar w0)).
    cbn [bind as_string].
    rewrite (compile_ok w0 e0 C0). cbn [bind]. change (wr [None; None; None; None] 0 (Some e0)) with (Ok [Some e0; None; None; None]). cbn [bind].
    apply Hfin; [reflexivity|]. intros f Hf. assert (f = 0 \/ f = 1 \/ f = 2)%Z as [->|[->| ->]] by lia; reflexivity.
  - change (zrange 0 (lenZ [YScalar w0; YScalar w1])) with [0%Z; 1%Z]. cbn [foldM yidx].
    change (nthZ [YScalar w0; YScalar w1] 0) with (Some (YScalar w0)).
    change (nthZ [YScalar w0; YScalar w1] 1) with (Some (YScalar w1)).
    cbn [bind as_string].
    rewrite (compile_ok w0 e0 C0). cbn [bind]. change (wr [None; None; None; None] 0 (Some e0)) with (Ok [Some e0; None; None; None]). cbn [bind].
    rewrite (compile_ok w1 e1 C1). cbn [bind]. change (wr [Some e0; None; None; None] 1 (Some e1)) with (Ok [Some e0; Some e1; None; None]). cbn [bind].
    apply Hfin; [reflexivity|]. intros f Hf. assert (f = 0 \/ f = 1 \/ f = 2)%Z as [->|[->| ->]] by lia; reflexivity.
  - change (zrange 0 (lenZ [YScalar w0; YScalar w1; YScalar w2])) with [0%Z; 1%Z; 2%Z]. cbn [foldM yidx].
    change (nthZ [YScalar w0; YScalar w1; YScalar w2] 0) with (Some (YScalar w0)).
    change (nthZ [YScalar w0; YScalar w1; YScalar w2] 1) with (Some (YScalar w1)).
    change (nthZ [YScalar w0; YScalar w1; YScalar w2] 2) with (Some (YScalar w2)).
    cbn [bind as_string].
    rewrite (compile_ok w0 e0 C0). cbn [bind]. change (wr [None; None; None; None] 0 (Some e0)) with (Ok [Some e0; None; None; None]). cbn [bind].
    rewrite (compile_ok w1 e1 C1). cbn [bind]. change (wr [Some e0; None; None; None] 1 (Some e1)) with (Ok [Some e0; Some e1; None; None]). cbn [bind].
    rewrite (compile_ok w2 e2 C2). cbn [bind]. change (wr [Some e0; Some e1; None; None] 2 (Some e2)) with (Ok [Some e0; Some e1; Some e2; None]). cbn [bind].
    apply Hfin; [reflexivity|]. intros f Hf. assert (f = 0 \/ f = 1 \/ f = 2)%Z as [->|[->| ->]] by lia; reflexivity.
  - change (zrange 0 (lenZ [YScalar w0; YScalar w1; YScalar w2; YScalar w3])) with [0%Z; 1%Z; 2%Z; 3%Z]. cbn [foldM yidx].
    change (nthZ [YScalar w0; YScalar w1; YScalar w2; YScalar w3] 0) with (Some (YScalar w0)).
    change (nthZ [YScalar w0; YScalar w1; YScalar w2; YScalar w3] 1) with (Some (YScalar w1)).
    change (nthZ [YScalar w0; YScalar w1; YScalar w2; YScalar w3] 2) with (Some (YScalar w2)).
    change (nthZ [YScalar w0; YScalar w1; YScalar w2; YScalar w3] 3) with (Some (YScalar w3)).
    cbn [bind as_string].
    rewrite (compile_ok w0 e0 C0). cbn [bind]. change (wr [None; None; None; None] 0 (Some e0)) with (Ok [Some e0; None; None; None]). cbn [bind].
    rewrite (compile_ok w1 e1 C1). cbn [bind]. change (wr [Some e0; None; None; None] 1 (Some e1)) with (Ok [Some e0; Some e1; None; None]). cbn [bind].
    rewrite (compile_ok w2 e2 C2). cbn [bind]. change (wr [Some e0; Some e1; None; None] 2 (Some e2)) with (Ok [Some e0; Some e1; Some e2; None]). cbn [bind].
    rewrite (compile_ok w3 e3 C3). cbn [bind]. change (wr [Some e0; Some e1; Some e2; None] 3 (Some e3)) with (Ok [Some e0; Some e1; Some e2; Some e3]). cbn [bind].
    apply Hfin; [reflexivity|]. intros f Hf. assert (f = 0 \/ f = 1 \/ f = 2)%Z as [->|[->| ->]] by lia; reflexivity.
Qed.

Lemma coord_read m D f d i : mesh_setup m D -> (0 <= f < m_dim m \/ f = 3)%Z -> (0 <= d < 3)%Z -> (0 <= i < m_n m f d)%Z ->
  m_coord m f d i = Ok (xyz m f d i).
Proof.
  intros Hs Hf Hd Hi. pose proof (setup_facts _ _ Hs) as F. unfold xyz. destruct (Z.ltb_spec d (m_dim m)) as [H|H].
  - destruct Hf as [Hf| ->]; [apply (mf_coord _ _ F); lia|apply (mf_pcoord _ _ F); lia].
  - destruct Hs as (mn & mx & per & w & np & _ & Hm & _).
    assert (E : m_fd m f d = fdir_default).
    { rewrite (createMesh_fd _ _ _ _ _ _ f d Hm). unfold mesh_fd. destruct (Z.ltb_spec d (m_dim m)); [lia|]. reflexivity. }
    unfold m_coord, m_n in *. rewrite E in *. cbn in Hi. assert (i = 0)%Z by lia. subst. reflexivity.
Qed.

Definition ic_value (m : mesh) (nu : R) (e : R -> R -> R -> R -> R -> R) (f : Z) (p : pt) : R :=
  e (xyz m f 0 (pc p 0)) (xyz m f 1 (pc p 1)) (xyz m f 2 (pc p 2)) 0 nu.

Lemma eval_ok m D nu L f p e : mesh_setup m D -> (0 <= f < m_dim m \/ f = 3)%Z -> interior (m_n m f) p ->
  nthZ L f = Some (Some e) -> eval_ic m nu L f p = Ok (ic_value m nu e f p).
Proof.
  intros Hs Hf Hp HL. destruct p as [[i j] k]. unfold eval_ic, Prelude.rd. rewrite HL. cbn [bind].
  unfold interior in Hp.
  rewrite (coord_read m D f 0 i Hs Hf) by lia. cbn [bind]. rewrite (coord_read m D f 1 j Hs Hf) by lia. cbn [bind].
  rewrite (coord_read m D f 2 k Hs Hf) by lia. reflexivity.
Qed.

Lemma eval_undefined m nu L f p : nthZ L f = Some None -> eval_ic m nu L f p = UB.
Proof. intros H. destruct p as [[i j] k]. unfold eval_ic, Prelude.rd. rewrite H. reflexivity. Qed.

Lemma map_flat_map {A B C} (g : B -> C) (h : A -> list B) l : map g (flat_map h l) = flat_map (fun x => map g (h x)) l.
Proof. induction l as [|x t IH]; [reflexivity|]. cbn. now rewrite map_app, IH. Qed.

Lemma flat_map_ext_in {A B} (g h : A -> list B) l : (forall x, In x l -> g x = h x) -> flat_map g l = flat_map h l.
Proof.
  induction l as [|x t IH]; intros H; [reflexivity|]. cbn. rewrite H by (now left). rewrite IH; auto.
  intros; apply H; now right.
Qed.

Section Mesh.
Variables (m : mesh) (D : dec).
Hypothesis Hs : mesh_setup m D.

Lemma nu_part y nu vel pe : describes_ics rd compiled y nu vel pe ->
  setInitialConditions rd lambdify (Some y) m D =
  do ics <- parseICs lambdify (Some y);
  do us <- mapM (fun r => do parts <- mapM (fun f => mapM (eval_ic m nu ics f) (local_points D f r)) (zrange 0 (m_dim m));
                          Ok (concat parts)) (zrange 0 (nranks D));
  do ps <- mapM (fun r => mapM (eval_ic m nu ics 3) (local_points D 3 r)) (zrange 0 (nranks D));
  Ok (mkSol (vec_of us) (vec_of ps)).
Proof.
  intros (st & fl & ws & -> & E1 & (l & s & El & E3 & N) & _). injection El as <-.
  unfold setInitialConditions. cbn [yget]. rewrite E1. cbn [bind yget]. rewrite E3. cbn [bind].
  unfold as_real. cbn [as_string bind]. rewrite N. reflexivity.
Qed.

Lemma local_int f r p : (0 <= f < m_dim m \/ f = 3)%Z -> (0 <= r < nranks D)%Z -> In p (local_points D f r) -> interior (m_n m f) p.
Proof. intros Hf Hr Hp. pose proof (setup_facts _ _ Hs) as F. eapply local_interior; eauto. apply (mf_dec _ _ F); auto. Qed.

Lemma ics_lemma y nu vel pe : describes_ics rd compiled y nu vel pe -> (m_dim m <= lenZ vel <= 4)%Z ->
  exists s, setInitialConditions rd lambdify (Some y) m D = Ok s /\
    (forall id f p, nthZ (packed_layout (m_dim m) D) id = Some (f, p) ->
       exists e, nthZ vel f = Some e /\ UGlobal s id = ic_value m nu e f p) /\
    (forall id p, nthZ (field_layout D 3) id = Some p -> pGlobal s id = ic_value m nu pe 3 p).
Proof.
  intros Hd Hl. rewrite (nu_part _ _ _ _ Hd). destruct (parse_ics_ok _ _ _ _ Hd ltac:(lia)) as (L & -> & HL & H3 & Hv).
  pose proof (setup_facts _ _ Hs) as F. pose proof (mf_dim _ _ F) as Hdim.
  cbn [bind]. set (ev := fun f => match nthZ vel f with Some e => e | None => pe end).
  assert (Hev : forall f, (0 <= f < m_dim m)%Z -> nthZ L f = Some (Some (ev f)) /\ nthZ vel f = Some (ev f)).
  { intros f Hf. rewrite Hv by lia. unfold ev. destruct (nthZ_in_range vel f ltac:(lia)) as [e ->]. auto. }
  rewrite (mapM_ok _ (fun r => flat_map (fun f => map (ic_value m nu (ev f) f) (local_points D f r)) (zrange 0 (m_dim m)))).
  2:{ intros r Hr. apply zrange_In in Hr.
      rewrite (mapM_ok _ (fun f => map (ic_value m nu (ev f) f) (local_points D f r))).
      - cbn [bind]. now rewrite <- flat_map_concat_map.
      - intros f Hf. apply zrange_In in Hf. apply mapM_ok. intros p Hp. eapply eval_ok; eauto.
        + eapply local_int; eauto.
        + apply Hev; auto. }
  cbn [bind].
  rewrite (mapM_ok _ (fun r => map (ic_value m nu pe 3) (local_points D 3 r))).
  2:{ intros r Hr. apply zrange_In in Hr. apply mapM_ok. intros p Hp. eapply eval_ok; eauto. eapply local_int; eauto. }
  cbn [bind]. eexists. split; [reflexivity|]. cbn [UGlobal pGlobal]. unfold vec_of.
  rewrite <- !flat_map_concat_map. split.
  - intros id f p Hid.
    assert (Hin : In (f, p) (packed_layout (m_dim m) D)) by (eapply nthZ_In; eauto).
    assert (Hf : (0 <= f < m_dim m)%Z).
    { unfold packed_layout in Hin. apply in_flat_map in Hin. destruct Hin as (r & _ & Hin).
      apply in_flat_map in Hin. destruct Hin as (g & Hg & Hin). apply in_map_iff in Hin.
      destruct Hin as (q & E & _). injection E as -> _. now apply zrange_In. }
    exists (ev f). split; [now apply Hev|].
    replace (flat_map _ (zrange 0 (nranks D))) with (map (fun fp => ic_value m nu (ev (fst fp)) (fst fp) (snd fp)) (packed_layout (m_dim m) D)).
    + rewrite nthZ_map. change (Z * Z * Z)%type with pt in Hid. unfold pt in *. rewrite Hid. reflexivity.
    + unfold packed_layout. rewrite map_flat_map. apply flat_map_ext_in. intros r _.
      rewrite map_flat_map. apply flat_map_ext_in. intros g _. rewrite map_map. reflexivity.
  - intros id p Hid. replace (flat_map _ (zrange 0 (nranks D))) with (map (ic_value m nu pe 3) (field_layout D 3)).
    + rewrite nthZ_map. unfold pt in *. rewrite Hid. reflexivity.
    + unfold field_layout. now rewrite map_flat_map.
Qed.

(** A failing element makes the loop undefined when no element reports an error. *)
Lemma mapM_UB {A B} (f : A -> res B) l x :
  (forall z c, In z l -> f z <> Err c) -> In x l -> f x = UB -> mapM f l = UB.
Proof.
  induction l as [|z t IH]; intros He Hi Hx; [destruct Hi|]. cbn [mapM].
  destruct (f z) eqn:E; cbn [bind]; [|exfalso; eapply He; [now left|exact E]|reflexivity].
  destruct Hi as [->|Hi]; [congruence|]. rewrite IH; auto. intros w c Hw. apply He. now right.
Qed.

Lemma mapM_no_err {A B} (f : A -> res B) l : (forall z c, In z l -> f z <> Err c) -> forall c, mapM f l <> Err c.
Proof.
  induction l as [|z t IH]; intros He c; [discriminate|]. cbn [mapM].
  destruct (f z) eqn:E; cbn [bind]; [|exfalso; eapply He; [now left|exact E]|discriminate].
  specialize (IH (fun w d Hw => He w d (or_intror Hw))). destruct (mapM f t) eqn:E2; cbn [bind]; try discriminate.
  intros _. now apply (IH c0).
Qed.

Lemma eval_no_err nu L f p c : eval_ic m nu L f p <> Err c.
Proof.
  destruct p as [[i j] k]. unfold eval_ic, Prelude.rd. destruct (nthZ L f) as [[e|]|]; cbn [bind]; try discriminate.
  unfold m_coord, rdA, Prelude.rd. destruct (nthZ _ _); cbn [bind]; [|discriminate].
  destruct (nthZ _ _); cbn [bind]; [|discriminate]. destruct (nthZ _ _); cbn [bind]; discriminate.
Qed.

Lemma rank0_point f : (0 <= f < m_dim m \/ f = 3)%Z -> exists p, In p (local_points D f 0).
Proof.
  intros Hf. pose proof (setup_facts _ _ Hs) as F. exists (0, 0, 0)%Z. unfold local_points. apply box_In.
  assert (H : forall d, (0 <= d < 3)%Z -> (d_bg D f d 0 <= 0 < d_ed D f d 0)%Z).
  { intros d Hd. assert (E : rcoord D d 0 = 0%Z).
    { unfold rcoord. destruct (d =? 0)%Z; [|destruct (d =? 1)%Z]; rewrite ?Zmod_0_l, ?Zdiv_0_l, ?Zmod_0_l; reflexivity. }
    unfold d_ed, d_bg, d_m. rewrite E. unfold isum. change (Z.to_nat (0 - 0)) with 0%nat. cbn.
    rewrite (mf_split _ _ F) by auto. pose proof (mf_np _ _ F f d Hf Hd) as [N1 N2]. unfold dmda_l.
    assert (1 <= m_n m f d / ds_np D d)%Z by (apply Z.div_le_lower_bound; lia).
    destruct (m_n m f d mod ds_np D d >? 0)%Z; lia. }
  pose proof (H 0%Z ltac:(lia)). pose proof (H 1%Z ltac:(lia)). pose proof (H 2%Z ltac:(lia)). lia.
Qed.

Lemma ics_too_few y nu vel pe : describes_ics rd compiled y nu vel pe -> (lenZ vel < m_dim m)%Z ->
  setInitialConditions rd lambdify (Some y) m D = UB.
Proof.
  intros Hd Hl. pose proof (setup_facts _ _ Hs) as F. pose proof (mf_dim _ _ F) as Hdim.
  rewrite (nu_part _ _ _ _ Hd). destruct (parse_ics_ok _ _ _ _ Hd ltac:(lia)) as (L & -> & HL & H3 & Hv).
  cbn [bind]. set (f := lenZ vel). assert (Hf : (0 <= f < m_dim m)%Z) by (unfold f, lenZ in *; lia).
  destruct (rank0_point f (or_introl Hf)) as (p & Hp).
  assert (Hu : nthZ L f = Some None).
  { rewrite Hv by lia. unfold nthZ, f, lenZ. destruct (Z.ltb_spec (Z.of_nat (length vel)) 0); [lia|].
    rewrite Nat2Z.id. assert (E : nth_error vel (length vel) = None) by now apply nth_error_None. exact (f_equal _ E). }
  rewrite (mapM_UB _ _ 0%Z); [reflexivity| | |].
  - intros r c _. destruct (mapM _ (zrange 0 (m_dim m))) eqn:E; cbn [bind]; try discriminate.
    intros _. revert E. apply mapM_no_err. intros z c' _. apply mapM_no_err. intros q c'' _. apply eval_no_err.
  - apply zrange_In. split; [lia|]. unfold nranks. pose proof (mf_np _ _ F 3 0 ltac:(lia) ltac:(lia)).
    pose proof (mf_np _ _ F 3 1 ltac:(lia) ltac:(lia)). pose proof (mf_np _ _ F 3 2 ltac:(lia) ltac:(lia)). nia.
  - rewrite (mapM_UB _ _ f); [reflexivity| | |].
    + intros z c' _. apply mapM_no_err. intros q c'' _. apply eval_no_err.
    + now apply zrange_In.
    + apply (mapM_UB _ _ p); auto. { intros q c'' _. apply eval_no_err. } now apply eval_undefined.
Qed.
End Mesh.

Lemma ics_no_nu st fl m D : assoc st "flow" = Some (YMap fl) -> assoc fl "nu" = None ->
  setInitialConditions rd lambdify (Some (YMap st)) m D = Err PETSC_ERR_USER_INPUT.
Proof. intros H1 H2. unfold setInitialConditions. cbn [yget]. rewrite H1. cbn [bind yget]. rewrite H2. reflexivity. Qed.
End IC.
