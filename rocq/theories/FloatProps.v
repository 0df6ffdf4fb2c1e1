(** C85, C86: the simulation time and the mesh vertices in double precision. *)
From Coq Require Import ZArith Reals List Lra Lia Bool.
From Flocq Require Import Core BinarySingleNaN Binary Bits.
From Verif Require Import FloatModel FloatSpec FloatProof.
Import ListNotations.
Local Open Scope R_scope.

(** C85. After [n] steps the time is a finite number within
    n * 2^-52 * (|t0| + n*|dt|) of t0 + n*dt. *)
Theorem time_drift : forall n t0 dt, ordinary_run n t0 dt ->
  finite (clock n t0 dt) /\ Rabs (val (clock n t0 dt) - exact_time n t0 dt) <= drift n t0 dt.
Proof. exact clock_close. Qed.
Print Assumptions time_drift.

(** C85. The time increases at every step, as long as it has not reached
    2^51 time steps. *)
Theorem time_increases : forall n t0 dt, ordinary_run (S n) t0 dt -> 0 < val dt -> Rabs (val t0) + INR n * val dt < 2 ^ 51 * val dt ->
  val (clock n t0 dt) < val (clock (S n) t0 dt).
Proof. exact clock_increases. Qed.
Print Assumptions time_increases.

(** C85. Beyond that it may stand still: from 2^53, steps of 1 change nothing. *)
Definition two53 : dbl := B754_finite 53 1024 false 4503599627370496 1 eq_refl.
Definition one : dbl := B754_finite 53 1024 false 4503599627370496 (-52) eq_refl.

Lemma one_val : val one = 1.
Proof. change (4503599627370496 * / IZR (Z.pow_pos 2 52) = 1). change (Z.pow_pos 2 52) with 4503599627370496%Z. lra. Qed.

Theorem time_increases_refuted : val one = 1 /\ forall n, clock n two53 one = two53.
Proof.
  split; [exact one_val|]. induction n as [|n IH]; [reflexivity|]. cbn [clock]. rewrite IH. apply B2FF_inj. now vm_compute.
Qed.
Print Assumptions time_increases_refuted.

(** C85. A run stopped after [m] steps and continued for [n] has the times, and
    the probes record the steps, of one run of [m + n] steps: bit for bit. *)
Theorem interrupted_run_has_same_times : forall m n c ts te ns t0 dt,
  clock (m + n) t0 dt = clock n (clock m t0 dt) dt /\
  probe_steps c ts te ns (m + n) t0 dt = probe_steps c ts te ns m t0 dt ++ probe_steps c ts te (ns + Z.of_nat m) n (clock m t0 dt) dt.
Proof.
  intros m n c ts te ns t0 dt. split; [apply clock_split|]. unfold probe_steps. rewrite <- map_app. f_equal.
  rewrite seq_app, map_app, filter_app. f_equal. f_equal. rewrite <- (seq_shift_by m 1 n) || idtac.
  assert (H : forall s, map (fun k => ((ns + Z.of_nat k)%Z, clock k t0 dt)) (seq (s + m) n) =
    map (fun k => ((ns + Z.of_nat m + Z.of_nat k)%Z, clock k (clock m t0 dt) dt)) (seq s n)).
  { induction n as [|n IH]; intros s; [reflexivity|]. cbn [seq map]. rewrite <- (IH (S s)). f_equal. rewrite (Nat.add_comm s m), clock_split. f_equal. lia. }
  exact (H 1%nat).
Qed.
Print Assumptions interrupted_run_has_same_times.

(** C85. A probe records every step of its stride whose exact time lies inside
    the probe's window by more than the drift ... *)
Theorem probe_records_inside : forall c ts te ns nt t0 dt k, ordinary_run nt t0 dt -> finite ts -> finite te -> (1 <= k <= nt)%nat ->
  Z.rem (ns + Z.of_nat k) c = 0%Z -> val ts + drift k t0 dt <= exact_time k t0 dt <= val te - drift k t0 dt ->
  In (ns + Z.of_nat k)%Z (probe_steps c ts te ns nt t0 dt).
Proof. exact probe_surely. Qed.
Print Assumptions probe_records_inside.

(** ... and no step whose exact time lies outside by more than the drift. *)
Theorem probe_records_only : forall c ts te ns nt t0 dt s, ordinary_run nt t0 dt -> finite ts -> finite te ->
  In s (probe_steps c ts te ns nt t0 dt) -> exists k, (1 <= k <= nt)%nat /\ s = (ns + Z.of_nat k)%Z /\ Z.rem s c = 0%Z /\
    val ts - drift k t0 dt <= exact_time k t0 dt <= val te + drift k t0 dt.
Proof. exact probe_only. Qed.
Print Assumptions probe_records_only.

(** The double nearest to 0.1, and 10^12 (the default end of a window). *)
Definition tenth : dbl := B754_finite 53 1024 false 7205759403792794 (-56) eq_refl.
Definition late : dbl := B754_finite 53 1024 false 8192000000000000 (-13) eq_refl.

Lemma tenth_val : val tenth = 7205759403792794 / 72057594037927936.
Proof. change (7205759403792794 * / IZR (Z.pow_pos 2 56) = 7205759403792794 / 72057594037927936). change (Z.pow_pos 2 56) with 72057594037927936%Z. lra. Qed.

Lemma late_val : val late = 1000000000000.
Proof. change (8192000000000000 * / IZR (Z.pow_pos 2 13) = 1000000000000). change (Z.pow_pos 2 13) with 8192%Z. lra. Qed.

(** C85. At the ends of the window the drift decides: with dt = 0.1 and
    t_start = 1.0 the tenth step is due, and is not recorded. *)
Theorem probe_start_refuted : exists ts te t0 dt, ordinary_run 20 t0 dt /\ finite ts /\ finite te /\
  val ts <= exact_time 10 t0 dt <= val te /\ probe_steps 1 ts te 0 12 t0 dt = [11; 12]%Z.
Proof.
  exists one, late, dzero, tenth. split; [|split; [reflexivity|split; [reflexivity|split]]].
  - split; [reflexivity|split; [reflexivity|split]].
    + cbn [INR]. lra.
    + rewrite zero_val, tenth_val, Rabs_R0. rewrite Rabs_right by lra. apply Rle_trans with (2 ^ 10); [cbn [INR]; lra|]. apply Rle_pow; [lra|lia].
  - unfold exact_time. rewrite zero_val, tenth_val, one_val, late_val. cbn [INR]. lra.
  - now vm_compute.
Qed.
Print Assumptions probe_start_refuted.

(** C85, a case: a thousand steps of 0.1 drift by less than 10^-10; a probe of
    stride 5 from time 1 records steps 15 and 20, and not step 10; one that
    stops at time 1 records steps 1 to 10. *)
Example time_case : ordinary_run 1000 dzero tenth /\ drift 1000 dzero tenth < / 10 ^ 10 /\
  probe_steps 5 one late 0 20 dzero tenth = [15; 20]%Z /\ probe_steps 1 dzero one 0 12 dzero tenth = [1;2;3;4;5;6;7;8;9;10]%Z.
Proof.
  assert (E : INR 1000 = 1000) by (rewrite INR_IZR_INZ; reflexivity).
  split; [|split; [|split; now vm_compute]].
  - split; [reflexivity|split; [reflexivity|split]].
    + rewrite E. apply Rle_trans with (2 ^ 10); [lra|]. apply Rle_pow; [lra|lia].
    + rewrite E, zero_val, tenth_val, Rabs_R0. rewrite Rabs_right by lra. apply Rle_trans with (2 ^ 10); [lra|]. apply Rle_pow; [lra|lia].
  - unfold drift, eps. rewrite E, zero_val, tenth_val, Rabs_R0. rewrite Rabs_right by lra. lra.
Qed.

(** C86. Every vertex is a finite number within k * 2^-52 * (|min| + length) of
    the exact sum of the lower end and the first [k] widths. *)
Theorem vertex_positions : forall min l k v, ordinary_mesh min l -> nth_error (vertices min l) k = Some v ->
  finite v /\ Rabs (val v - (val min + length_of k l)) <= INR k * eps * (Rabs (val min) + length_of k l).
Proof. exact vertex_close. Qed.
Print Assumptions vertex_positions.

(** C86. Two neighbouring vertices are in order unless the cell between them is
    at the limit of the precision. *)
Theorem vertices_in_order : forall min l k v v' d, ordinary_mesh min l -> nth_error (vertices min l) k = Some v -> nth_error (vertices min l) (S k) = Some v' ->
  nth_error l k = Some d -> 3 * eps * (Rabs (val min) + length_of (S k) l) < val d -> val v < val v'.
Proof. exact vertex_increases. Qed.
Print Assumptions vertices_in_order.

(** C86. A uniform sub-domain from [bg] to [ed] in [n] cells: vertex [k] is
    within (k+2) * 2^-52 * (|bg| + k*h) of bg + k*h, h = (ed - bg)/n. *)
Theorem uniform_vertex_positions : forall n bg ed k v, (0 < n)%nat -> INR n <= 2 ^ 50 -> finite bg -> finite ed -> val bg < val ed ->
  Rabs (val bg) + Rabs (val ed) <= 2 ^ 998 -> / 2 ^ 1000 <= (val ed - val bg) / INR n ->
  nth_error (vertices bg (uniform_widths n bg ed)) k = Some v ->
  finite v /\ Rabs (val v - (val bg + INR k * ((val ed - val bg) / INR n))) <= (INR k + 2) * eps * (Rabs (val bg) + INR k * ((val ed - val bg) / INR n)).
Proof. exact uniform_close. Qed.
Print Assumptions uniform_vertex_positions.

Theorem uniform_vertices_in_order : forall n bg ed k v v', (0 < n)%nat -> INR n <= 2 ^ 50 -> finite bg -> finite ed -> val bg < val ed ->
  Rabs (val bg) + Rabs (val ed) <= 2 ^ 998 -> / 2 ^ 1000 <= (val ed - val bg) / INR n ->
  4 * eps * (Rabs (val bg) + (val ed - val bg)) <= (val ed - val bg) / INR n ->
  nth_error (vertices bg (uniform_widths n bg ed)) k = Some v -> nth_error (vertices bg (uniform_widths n bg ed)) (S k) = Some v' -> val v < val v'.
Proof. exact uniform_increases. Qed.
Print Assumptions uniform_vertices_in_order.

(** C86. The pressure point of a cell lies strictly between the two vertices of
    the cell. *)
Theorem pressure_point_inside_cell : forall min l k v v' d, ordinary_mesh min l -> nth_error (vertices min l) k = Some v -> nth_error (vertices min l) (S k) = Some v' ->
  nth_error l k = Some d -> / 2 ^ 1000 <= val d -> 16 * eps * (Rabs (val min) + length_of (S k) l) < val d ->
  exists c, nth_error (centres min l) k = Some c /\ finite c /\ val v < val c < val v'.
Proof. exact centre_between. Qed.
Print Assumptions pressure_point_inside_cell.

(** C86. The last vertex need not be the configured end: ten cells from 0 to 1. *)
Theorem last_vertex_refuted : exists v, nth_error (vertices dzero (uniform_widths 10 dzero one)) 10 = Some v /\ val v < val one.
Proof.
  assert (H : match nth_error (vertices dzero (uniform_widths 10 dzero one)) 10 with Some v => is_finite 53 1024 v && negb (dle one v) | None => false end = true) by now vm_compute.
  destruct (nth_error _ 10) as [v|]; [|discriminate]. exists v. split; [reflexivity|]. apply andb_true_iff in H. destruct H as [F H].
  apply Rnot_le_lt. intros Hle. apply (dle_spec one v) in Hle; [|reflexivity|exact F]. rewrite Hle in H. discriminate.
Qed.
Print Assumptions last_vertex_refuted.

(** C86, a case: the ten cells satisfy the hypotheses. *)
Example uniform_case : (0 < 10)%nat /\ INR 10 <= 2 ^ 50 /\ finite dzero /\ finite one /\ val dzero < val one /\
  Rabs (val dzero) + Rabs (val one) <= 2 ^ 998 /\ / 2 ^ 1000 <= (val one - val dzero) / INR 10 /\
  4 * eps * (Rabs (val dzero) + (val one - val dzero)) <= (val one - val dzero) / INR 10 /\
  ordinary_mesh dzero (uniform_widths 10 dzero one).
Proof.
  assert (A : / 2 ^ 1000 <= (val one - val dzero) / INR 10).
  { rewrite one_val, zero_val. apply Rle_trans with (/ 2 ^ 10); [|cbn [INR]; lra]. apply Rinv_le; [apply pow_lt; lra|]. apply Rle_pow; [lra|lia]. }
  assert (B : Rabs (val dzero) + Rabs (val one) <= 2 ^ 998).
  { rewrite one_val, zero_val, Rabs_R0, Rabs_R1. apply Rle_trans with (2 ^ 1); [lra|]. apply Rle_pow; [lra|lia]. }
  assert (D : INR 10 <= 2 ^ 50) by (cbn [INR]; lra). assert (V : val dzero < val one) by (rewrite one_val, zero_val; lra).
  split; [lia|]. split; [exact D|]. split; [reflexivity|]. split; [reflexivity|]. split; [exact V|]. split; [exact B|]. split; [exact A|]. split.
  - unfold eps. rewrite one_val, zero_val, Rabs_R0. cbn [INR]. lra.
  - apply uniform_mesh_ok; auto; try reflexivity; lia.
Qed.
