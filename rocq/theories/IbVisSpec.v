(** Specification vocabulary: what a viewer shows of a run after the vorticity
    utility and the XDMF utility. *)
From Coq Require Import String Reals.
From Verif Require Import Prelude ZSum RSum TypesModel GridModel IndexModel IndexSpec BoundaryModel BoundarySpec OperatorModel OperatorSpec MatModel NSModel DriverModel VortModel VortSpec XdmfModel XdmfSpec.
Local Open Scope R_scope.

(** What is written at each step stays away from the grid file. *)
Definition off_grid {A} (out : string) (mon : A -> list fsop) : Prop := forall s o, In o (mon s) -> op_path o <> grid_path out.

(** With the files [docs] and the disk [d], a viewer shows the steps t with
    bg <= t <= ed and step | t. At each of them it shows the velocity components
    and the pressure of a state [st] with [at_step t st]: at every point of the
    field the coordinates of the point and the value, and nothing else; and the
    components of the vorticity at their own points, the z component inside the
    domain being the circulation of the velocity of [st] around the vertex, per
    unit area. *)
Definition shows (m : mesh) (D : dec) (out : string) (bg ed step : Z) (docs : list (string * list xgrid)) (d : disk) (at_step : Z -> nsstate -> Prop) : Prop :=
  (forall f, (0 <= f < m_dim m \/ f = 3)%Z -> exists gs, In ((out ++ "/" ++ fd2str f ++ ".xmf")%string, gs) docs /\ lists_steps gs bg ed step /\
     forall g, In g gs -> exists st, at_step (xg_time g) st /\ displays d g (m_dim m) (m_n m f) (crd m f) (field_value m D f st)) /\
  (forall a, (if (m_dim m =? 2)%Z then a = 2%Z else (0 <= a < 3)%Z) -> exists gs, In ((out ++ "/" ++ vort_group a ++ ".xmf")%string, gs) docs /\ lists_steps gs bg ed step /\
     forall g, In g gs -> exists st, at_step (xg_time g) st /\
       displays d g (m_dim m) (vort_sizes m a) (vort_crd m a)
         (fun p v => a = 2%Z -> inner_vertex m 2 p -> forall u, velocity_of m D st u -> v = curl m u 2 p)).
