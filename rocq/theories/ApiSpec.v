(** Specification vocabulary: the configurations of the API example. *)
From Coq Require Import Ascii String Permutation.
From Verif Require Import Prelude ZSum RSum TypesModel GridModel GridSpec IndexModel BoundaryModel ConfigModel ConfigSpec ProgModel ProgSpec.
Local Open Scope R_scope.
Local Open Scope string_scope.

(** What the program reads, as the manual describes it: mesh, boundary
    conditions, initial fields, the two solvers, the output directory. *)
Record api_documented (rd : reader) (lambdify : string -> option (R -> R -> R -> R -> R -> R)) (amgx : bool) (load : string -> bool) (np : Z -> Z) (y : yaml)
    (axs : list axis) (bcs : list (Z * Z * bctype * R)) (nu : R) (vel : list (R -> R -> R -> R -> R -> R)) (pe : R -> R -> R -> R -> R -> R)
    (out : string) (velocity poisson : linsolver) : Prop := mkApiDoc {
  ad_zero : lambdify "0" = Some (fun _ _ _ _ _ => 0);
  ad_mesh : describes rd y axs bcs;
  ad_dim : (lenZ axs = 2 \/ lenZ axs = 3)%Z;
  ad_axes : Permutation (map ax_dir axs) (firstn (length axs) ["x"; "y"; "z"]);
  ad_axis : Forall axis_ok axs;
  ad_bcs : bcs_ok (lenZ axs) bcs;
  ad_np : (forall d, (0 <= d < 3)%Z -> (1 <= np d)%Z) /\ (lenZ axs = 2%Z -> np 2%Z = 1%Z) /\
    (forall d n, axis_cells axs d n -> (np d <= n)%Z /\ ((forall v, ~ In (0%Z, (2 * d)%Z, PERIODIC, v) bcs) -> (np d < n)%Z));
  ad_ics : describes_ics rd (fun w e => lambdify w = Some e) y nu vel pe;
  ad_vel : (lenZ axs <= lenZ vel <= 4)%Z;
  ad_run : exists st ps dir, y = YMap st /\ assoc st "parameters" = Some (YMap ps) /\ word_entry y "directory" dir /\ word_entry y "output" out /\
    describes_solver amgx load ps dir "velocity" velocity /\ describes_solver amgx load ps dir "poisson" poisson }.

(** Without the entry "nu" in the section "flow". *)
Definition without_nu (y : yaml) : Prop := exists st fl, y = YMap st /\ assoc st "flow" = Some (YMap fl) /\ assoc fl "nu" = None.
