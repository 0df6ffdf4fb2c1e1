(** Specification vocabulary for the immersed bodies. *)
From Coq Require Import String Ascii Reals Lra.
From Verif Require Import Prelude ZSum RSum TypesModel GridModel GridSpec IndexModel BodyModel.
Local Open Scope Z_scope.

(** A distribution of the points of a body over [size] ranks: every rank has a
    non-negative number of consecutive points, and together they have all. *)
Definition spread (size : Z) (b : body) : Prop :=
  (forall r, 0 <= r < size -> 0 <= b_l b r) /\ isum (b_l b) 0 size = b_nPts b.

Definition pack_ok (size dim : Z) (bodies : list body) : Prop :=
  1 <= size /\ 1 <= dim /\ Forall (spread size) bodies.

(** The body number [b] of the pack has [n] points. *)
Definition has_points (bodies : list body) (b n : Z) : Prop :=
  exists bo, nthZ bodies b = Some bo /\ b_nPts bo = n.

(** The unknowns of one body on one rank, point by point, the components of a
    point next to each other. *)
Definition body_block (dim : Z) (bo : body) (b r : Z) : list (Z * Z * Z) :=
  flat_map (fun i => map (fun c => (b, i, c)) (zrange 0 dim)) (zrange (b_bg bo r) (b_ed bo r)).

(** The composite layout of the Lagrangian vectors: rank by rank, body by
    body. *)
Definition body_layout (size dim : Z) (bodies : list body) : list (Z * Z * Z) :=
  flat_map (fun r =>
     flat_map (fun b => match nthZ bodies b with Some bo => body_block dim bo b r | None => [] end)
              (zrange 0 (lenZ bodies)))
    (zrange 0 size).

(** A packed vector whose local arrays have the sizes of the layout. *)
Definition local_sizes (size dim : Z) (bodies : list body) (f : Z -> list R) : Prop :=
  forall r, 0 <= r < size -> lenZ (f r) = bp_nLclAllProcs dim bodies r.

(** The vector, all ranks one after the other. *)
Definition whole (size : Z) (f : Z -> list R) : list R := flat_map f (zrange 0 size).

(** [force] of component c of point i of body b: entry of the whole vector at
    the position of the unknown. *)
Definition holds_forces (size dim : Z) (bodies : list body) (f : Z -> list R) (force : Z -> Z -> Z -> R) : Prop :=
  whole size f = map (fun u => let '(b, i, c) := u in force b i c) (body_layout size dim bodies).

(** * Body files *)
Local Open Scope string_scope.

(** [reads lx s vs rest]: the numbers [vs] are read one after the other from
    the line [s] and [rest] is left. *)
Inductive reads (lx : lexer) : string -> list R -> string -> Prop :=
| reads_nil s : reads lx s [] s
| reads_cons s v s' vs rest : lex_real lx s = Some (v, s') -> reads lx s' vs rest -> reads lx s (v :: vs) rest.

(** A line that holds exactly these numbers. *)
Definition exact_line (lx : lexer) (s : string) (vs : list R) : Prop := reads lx s vs "".

(** Reading a number consumes at least one character; nothing is read from an
    empty line. *)
Definition proper (lx : lexer) : Prop :=
  (forall s v rest, lex_real lx s = Some (v, rest) -> (String.length rest < String.length s)%nat) /\
  lex_int lx "" = None.

(** The files described in the documentation: the number of points, then one
    line of [dim] numbers per point. *)
Definition point_file (lx : lexer) (dim n : Z) (rows : list (list R)) (tx : text) : Prop :=
  exists header ls,
    t_lines tx = header :: ls /\ lex_int lx header = Some (n, "") /\
    lenZ rows = n /\ Forall2 (exact_line lx) ls rows /\ Forall (fun r => lenZ r = dim) rows.

(** A printed number is read back exactly, whatever follows it as long as it
    starts with a blank. *)
Definition prints (lx : lexer) (pr : R -> string) (x : R) : Prop :=
  lex_real lx (pr x) = Some (x, "") /\
  forall t, lex_real lx (pr x ++ tab ++ t) = Some (x, tab ++ t) /\
            lex_real lx (tab ++ pr x ++ tab ++ t) = Some (x, tab ++ t) /\
            lex_real lx (tab ++ pr x) = Some (x, "").

(** The coordinates of the point lie strictly inside the domain. *)
Definition inside (m : mesh) (dim : Z) (row : list R) : Prop :=
  forall d x, 0 <= d < dim -> nthZ row d = Some x -> (m_min m d < x < m_max m d)%R.
