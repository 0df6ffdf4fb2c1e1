(** Specification vocabulary for the files of the probes. *)
From Coq Require Import String.
From Verif Require Import Prelude ZSum RSum TypesModel GridModel IndexModel IndexSpec BoundaryModel BoundarySpec OperatorModel OperatorSpec MatModel
  ProbeModel ProbeSpec NSModel DriverModel ProgModel PfileModel.
Local Open Scope R_scope.

(** The states after each step, in order. *)
Fixpoint trajectory {St} (step : St -> res St) (s : St) (hist : list St) : Prop :=
  match hist with [] => True | s' :: l => step s = Ok s' /\ trajectory step s' l end.

(** A description that can be used: a step between records that is not 0, a
    field of the mesh (a velocity component for a point), and for a box no
    gridline strictly between its limits when they are reversed. *)
Definition probe_usable (m : mesh) (p : pdesc) : Prop :=
  let f := pc_field (pd_conf p) in
  pc_nmonitor (pd_conf p) <> 0%Z /\
  ((pd_kind p = VOLUME /\ (0 <= f < m_dim m \/ f = 3)%Z /\ box_usable m f (pd_atol p) (pd_lo p) (pd_hi p)) \/
   (pd_kind p = POINT /\ (0 <= f < m_dim m)%Z)).

(** The points of a volume probe, rank after rank. *)
Definition probe_points (m : mesh) (D : dec) (p : pdesc) : list pt :=
  flat_map (box_points m D (pc_field (pd_conf p)) (pd_atol p) (pd_lo p) (pd_hi p)) (zrange 0 (nranks D)).
(** The coordinates along direction d of the gridlines that cross its box. *)
Definition probe_line (m : mesh) (p : pdesc) (d : Z) : list R :=
  let f := pc_field (pd_conf p) in
  filter (fun x => in_range (pd_lo p d - pd_atol p) x (pd_hi p d + pd_atol p)) (map (crd m f d) (zrange 0 (m_n m f d))).

(** [records] are what is due for the scheduled calls [sel], where [w] has the
    values of the field: one record per call, or the averages over groups of
    |n_sum| calls. *)
Definition due_records (m : mesh) (D : dec) (p : pdesc) (sel : list call) (w : call -> pt -> R) (records : list precord) : Prop :=
  let samples := map (fun cl => (call_time cl, map (w cl) (probe_points m D p))) sel in
  (pd_nsum p = 0%Z -> records = map (fun s => mkRec (fst s) None (snd s)) samples) /\
  (pd_nsum p <> 0%Z -> averaged (Z.abs (pd_nsum p)) (lenZ (probe_points m D p)) samples records).

Definition mesh_set (d : Z) : string := nth (Z.to_nat d) ["/mesh/x"; "/mesh/y"; "/mesh/z"]%string ""%string.
(** The datasets of an HDF5 file: the mesh, and under the name of its time each
    record that no later record has the name of. *)
Definition hdf5_contents (m : mesh) (D : dec) (p : pdesc) (records : list precord) (sets : string -> option hdata) : Prop :=
  let f := pc_field (pd_conf p) in
  (forall d, (0 <= d < m_dim m)%Z -> sets (mesh_set d) = Some (HReals (probe_line m p d) None)) /\
  sets "/mesh/IS"%string = Some (HInts (map (natural (m_n m f)) (probe_points m D p))) /\
  (forall j r, nthZ records j = Some r ->
     (forall i r', (j < i)%Z -> nthZ records i = Some r' -> record_name f (pr_time r') <> record_name f (pr_time r)) ->
     sets (record_name f (pr_time r)) = Some (HReals (pr_data r) (pr_count r))) /\
  (forall name x, sets name = Some x ->
     name = "/mesh/IS"%string \/ (exists d, (0 <= d < m_dim m)%Z /\ name = mesh_set d) \/
     exists r, In r records /\ name = record_name f (pr_time r)).
(** The pieces of an ASCII file. *)
Definition ascii_contents (m : mesh) (D : dec) (p : pdesc) (records : list precord) : list pitem :=
  map (fun d => Coords d (probe_line m p d)) (zrange 0 (m_dim m)) ++
  [Indices (map (natural (m_n m (pc_field (pd_conf p)))) (probe_points m D p))] ++
  map Block records.

(** The location lies in the span of the gridlines of the component. *)
Definition loc_of (p : pdesc) (d : Z) : R := match nthZ (pd_loc p) d with Some x => x | None => 0 end.
Definition in_span (m : mesh) (p : pdesc) : Prop :=
  let f := pc_field (pd_conf p) in forall d, (0 <= d < m_dim m)%Z -> crd m f d 0 <= loc_of p d < crd m f d (m_n m f d).

(** [F] is the file probe p is to leave behind after the calls [calls]. *)
Definition probe_file (m : mesh) (D : dec) (p : pdesc) (calls : list call) (F : pfile) : Prop :=
  let c := pd_conf p in
  forall sel w, selects (scheduled c) calls sel ->
    (forall n t U P, In (n, t, U, P) sel -> field_values m D (pc_field c) U P (w (n, t, U, P))) ->
    match pd_kind p with
    | VOLUME => exists records, due_records m D p sel w records /\
        if pd_hdf5 p then exists sets, F = Hdf5 sets /\ hdf5_contents m D p records sets
        else F = Ascii (ascii_contents m D p records)
    | _ => exists lines, F = Ascii (map (fun tv => Line (fst tv) (snd tv)) lines) /\
        (in_span m p -> Forall2 (fun cl tv => fst tv = call_time cl /\
                                  interpolant m (pc_field c) (probe_ext m (pc_field c) (w cl)) (loc_of p) (snd tv)) sel lines) /\
        (~ in_span m p -> lines = [])
    end.

(** The states of a run of n steps that starts in s1 and ends in s2. *)
Definition history {St} (step : St -> res St) (ite : St -> Z) (time : St -> R) (dt : R) (s1 : St) (n : Z) (hist : list St) (s2 : St) : Prop :=
  trajectory step s1 hist /\ last hist s1 = s2 /\ lenZ hist = n /\
  forall j s, nthZ hist j = Some s -> ite s = (ite s1 + j + 1)%Z /\ time s = time s1 + IZR (j + 1) * dt.

(** Every probe left its file, and no other file has changed. *)
Definition probes_written (m : mesh) (D : dec) (probes : list pdesc) (calls : list call) (q q2 : pdisk) : Prop :=
  (forall p, In p probes -> exists F, q2 (pd_path p) = Some F /\ probe_file m D p calls F) /\
  (forall path, ~ In path (map pd_path probes) -> q2 path = q path).
