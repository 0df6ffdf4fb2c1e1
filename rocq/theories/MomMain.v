(** The momentum of the fluid and the forces file of whole runs. *)
From Coq Require Import Lia ZifyBool String List.
Import ListNotations.
From Verif Require Import Prelude ZSum RSum TypesModel GridModel GridSpec GridProof MeshProof
  IndexModel IndexSpec IndexProof BoundaryModel BoundarySpec BoundaryProof OperatorModel OperatorSpec
  MatModel BnModel NSModel NSSpec NSProof ConvModel ConvSpec
  EnergySpec EnergyProof DriverModel DriverSpec BodyModel BodySpec DeltaModel DeltaSpec DeltaSum DeltaProps IbpmModel IbpmSpec IbpmProof IbpmStep IbpmDec IbpmMove
  IbOutModel IbOutSpec IbOutLines IbOutDrive IbOutProof IbOutDec IbOutBalance MomProof MomRun.
Local Open Scope R_scope.

Section Main.
Variables (m : mesh) (D : dec) (P : nspar) (types : Z -> Z -> bctype) (values : Z -> Z -> R) (f : Z).
Hypothesis Hset : mesh_setup m D.
Hypothesis Hb : bc_fits m types.
Hypothesis Hper : forall d, (0 <= d < m_dim m)%Z -> periodic_dir m d = true.
Hypothesis Hmin : periodic_min m 3.
Hypothesis Hf : (0 <= f < m_dim m)%Z.
Hypotheses (Hdt : 0 < p_dt P) (Hc : 0 <= p_dimp P * p_nu P).
Variables (name : string) (bodies : list (body * list (list R))).
Hypothesis Hbo : bodies_ok m D bodies.
Variables (h : Z -> R) (K : kernel) (w : Z).
Hypotheses (Hu : uniform m h) (HK : getKernel name = Ok (K, w)) (Hw : wide_enough m w).
Local Notation nv := (n_velocity m).
Local Notation ell := (integral m D f).

Lemma start_same {St : Type} ite (wsol : string -> St -> list fsop) rres conf s0 d s1 w1 : ite s0 = 0%Z ->
  io_initial_with ite wsol rres conf s0 d = Ok (s1, w1) -> s1 = s0.
Proof. intros H. unfold io_initial_with. rewrite H. cbn. intros E. now injection E as <- _. Qed.
Lemma all_lines (ls : list (list R)) n : lenZ ls = Z.max 0 n -> Z.to_nat n = List.length ls.
Proof. unfold lenZ. lia. Qed.

Lemma reported_fst (b1 b2 : list (body * list (list R))) t fv l : map fst b1 = map fst b2 -> reported m D b1 t fv l -> reported m D b2 t fv l.
Proof.
  intros E (force & H1 & H2). exists force. rewrite <- E. split; [exact H1|]. rewrite H2. f_equal.
  assert (Ln : lenZ b1 = lenZ b2) by (unfold lenZ; rewrite <- (map_length fst b1), E, map_length; reflexivity). rewrite Ln.
  apply flat_map_ext. intros b. pose proof (f_equal (fun l => nthZ l b) E) as En. cbv beta in En. rewrite !nthZ_map in En.
  destruct (nthZ b1 b) as [x|], (nthZ b2 b) as [y|]; cbn [option_map] in En; try discriminate; [|reflexivity]. injection En as ->. reflexivity.
Qed.

Lemma coupled_impulse t0 U0 p0 vs ps fuel conf mon d s2 d2 ls :
  (forall b i X, located bodies b i X -> clear m h (radius name) X) -> c_nstart conf = 0%Z ->
  (forall O s0, ib_init m D P types values name bodies t0 0 U0 p0 = Ok (O, s0) -> exact_solver nv (o_A (ib_ns O)) vs) ->
  ib_main fuel conf m D P types values name bodies t0 U0 p0 mon (convection m D) vs ps d = Ok (Some (s2, d2, ls)) ->
  ell (s_U s2) = ell U0 - p_dt P * sumR (recorded m f bodies) ls.
Proof.
  intros Hcl Hn Hv H. rewrite ib_main_is in H.
  destruct (g_lines m s_ite (c_init m D P types values name bodies t0 U0 p0) _ _ _ (c_line m D bodies) (c_step m D P (convection m D) vs ps)
     (c_init_any m D P types values name bodies t0 U0 p0) (c_ite m D P (convection m D) vs ps) (c_rite m D bodies) _ _ _ _ _ _ _ H) as (O & s0 & s1 & w1 & E1 & E2 & ER & E3 & E4).
  unfold c_init in E1. rewrite Hn in E1. specialize (Hv O s0 E1).
  destruct (c_init_any m D P types values name bodies t0 U0 p0 _ _ _ E1) as [Hi _].
  apply start_same in E2; [|exact Hi]. subst s1.
  destruct (ib_init_inv m D P types values name bodies Hset Hb _ _ _ _ _ _ E1) as (B & _ & _ & Es0).
  replace U0 with (s_U s0) by (rewrite Es0; reflexivity).
  rewrite (all_lines ls (c_nt conf) E3) in ER.
  rewrite <- (firstn_all ls) at 1.
  refine (lines_sum (c_step m D P (convection m D) vs ps O) (fun s => ell (s_U s)) (recorded m f bodies) (p_dt P)
    (fun s l => c_line m D bodies O s = Ok l) s0 ls _ E4 (List.length ls) s2 (le_n _) ER).
  intros k s s' l Es Ea El. destruct (ib_momentum m D P types values f Hset Hb Hper Hmin Hf Hdt Hc name bodies Hbo t0 0 U0 p0 O s0 vs ps k s E1 Hv Es) as [_ X].
  destruct (X s' Ea) as (B' & E & Hm & HB & EE & ->). pose proof (forces_line_reported m D bodies Hbo _ _ _ El) as Hr.
  rewrite (recorded_force m D types values f Hset Hb Hf name h K w Hu HK Hw bodies _ B' E Hm _ _ l Hbo HB Hcl EE Hr). ring.
Qed.

Lemma decoupled_impulse t0 U0 p0 vs ps fs fuel conf mon d x2 d2 ls :
  (forall b i X, located bodies b i X -> clear m h (radius name) X) -> c_nstart conf = 0%Z ->
  (forall O X x0, d_init m D P types values name bodies t0 0 U0 p0 = Ok (O, X, x0) -> exact_solver nv (o_A O) vs) ->
  d_main fuel conf m D P types values name bodies t0 U0 p0 mon (convection m D) vs ps fs d = Ok (Some (x2, d2, ls)) ->
  ell (s_U (x_ns x2)) = ell U0 - p_dt P * sumR (recorded m f bodies) ls.
Proof.
  intros Hcl Hn Hv H. rewrite d_main_is in H.
  destruct (g_lines m x_ite (e_init m D P types values name bodies t0 U0 p0) _ _ _ (fun _ => e_line m D bodies) (e_step m D P bodies (convection m D) vs ps fs)
     (e_init_any m D P types values name bodies t0 U0 p0) (fun OX => e_ite m D P (convection m D) vs ps _ _ _ _ _) (fun _ => e_rite m D _) _ _ _ _ _ _ _ H) as ([O X] & x0 & x1 & w1 & E1 & E2 & ER & E3 & E4).
  unfold e_init in E1. rewrite Hn in E1. specialize (Hv O X x0 E1).
  destruct (e_init_any m D P types values name bodies t0 U0 p0 _ _ _ E1) as [Hi _].
  apply start_same in E2; [|exact Hi]. subst x1.
  destruct (d_init_inv m D P types values Hset Hb _ _ _ _ _ _ _ _ _ E1) as (B & HB & EO & EX & Ex0).
  replace U0 with (s_U (x_ns x0)) by (rewrite Ex0; reflexivity).
  rewrite (all_lines ls (c_nt conf) E3) in ER.
  rewrite <- (firstn_all ls) at 1.
  refine (lines_sum (e_step m D P bodies (convection m D) vs ps fs (O, X)) (fun x => ell (s_U (x_ns x))) (recorded m f bodies) (p_dt P)
    (fun x l => e_line m D bodies x = Ok l) x0 ls _ E4 (List.length ls) x2 (le_n _) ER).
  intros k x x' l Es Ea El. destruct (d_momentum m D P types values f Hset Hb Hper Hmin Hf Hdt Hc name bodies t0 0 U0 p0 O X x0 _ vs ps fs k x E1 Hv Es) as [_ Y].
  destruct (Y x' Ea) as (_ & ->). pose proof (forces_line_reported m D bodies Hbo _ _ _ El) as Hr.
  destruct (extra_inv m D P _ _ _ _ _ EX) as (E & Hm & BN & EI & _ & EXX). rewrite EXX. cbn [di_H].
  rewrite (recorded_force m D types values f Hset Hb Hf name h K w Hu HK Hw bodies _ B E Hm _ _ l Hbo HB Hcl EI Hr). ring.
Qed.

Lemma moving_impulse mo pos vel t0 U0 p0 vs ps fs fuel conf mon d s2 d2 ls : prescribed m D bodies mo pos vel ->
  (forall t b i X, located (bodies_at bodies (pos t)) b i X -> clear m h (radius name) X) -> c_nstart conf = 0%Z ->
  (forall O s0, r_init m D P types values name bodies t0 0 U0 p0 = Ok (O, s0) -> exact_solver nv (o_A O) vs) ->
  r_main fuel conf m D P types values name bodies mo t0 U0 p0 mon (convection m D) vs ps fs d = Ok (Some (s2, d2, ls)) ->
  ell (s_U (x_ns (r_x s2))) = ell U0 - p_dt P * sumR (recorded m f bodies) ls.
Proof.
  intros Hmo Hcl Hn Hv H.
  destruct (v_lines m D P types values name bodies t0 U0 p0 (convection m D) vs ps Hset Hb Hbo mo pos vel fs Hmo fuel conf mon d s2 d2 ls H)
    as (O & s0 & s1 & w1 & E1 & E2 & ER & _ & E3 & E4).
  rewrite Hn in E1. specialize (Hv O s0 E1).
  destruct (r_init_inv m D P types values Hset Hb name bodies _ _ _ _ _ _ E1) as (B & X & x0 & _ & _ & EX & _ & Es0 & _ & Hi).
  apply start_same in E2; [|rewrite Es0; exact Hi]. subst s1.
  destruct (d_init_inv m D P types values Hset Hb _ _ _ _ _ _ _ _ _ EX) as (B1 & _ & _ & _ & Ex0).
  replace U0 with (s_U (x_ns (r_x s0))) by (rewrite Es0; cbn [r_x]; rewrite Ex0; reflexivity).
  rewrite (all_lines ls (c_nt conf) E3) in ER.
  rewrite <- (firstn_all ls) at 1.
  refine (lines_sum (r_advance m D P O name mo (convection m D) vs ps fs) (fun s => ell (s_U (x_ns (r_x s)))) (recorded m f bodies) (p_dt P)
    (fun s l => reported m D bodies (s_t (x_ns (r_x s))) (x_f (r_x s)) l) s0 ls _ _ (List.length ls) s2 (le_n _) ER).
  2: { intros k l Hk. destruct (E4 k l Hk) as (sk & A1 & _ & _ & _ & A5). eauto. }
  intros k s s' l Es Ea El. destruct (r_momentum m D P types values f Hset Hb Hper Hmin Hf Hdt Hc name bodies mo pos vel t0 0 U0 p0 O s0 vs ps fs k s Hmo E1 Hv Es) as [_ Y].
  destruct (Y s' Ea) as (_ & (t & Et) & B' & E & Hm & h1 & HB & EE & ->). rewrite Et in *.
  pose proof (ok_at m D bodies (pos t) Hbo (proj1 (Hmo t))) as Hbt.
  assert (Hr : reported m D (bodies_at bodies (pos t)) (s_t (x_ns (r_x s'))) (x_f (r_x s')) l).
  { apply (reported_fst bodies); [now rewrite at_fst by (exact (shape_len _ _ (proj1 (Hmo t))))|exact El]. }
  rewrite (recorded_force m D types values f Hset Hb Hf name h K w Hu HK Hw (bodies_at bodies (pos t)) _ B' E Hm _ _ l Hbt HB (Hcl t) EE Hr).
  unfold recorded. replace (lenZ (bodies_at bodies (pos t))) with (lenZ bodies); [ring|].
  unfold lenZ. rewrite <- (map_length fst bodies), <- (at_fst bodies (pos t)), map_length by (exact (shape_len _ _ (proj1 (Hmo t)))). reflexivity.
Qed.
End Main.
