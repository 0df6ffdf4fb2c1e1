(** Model of include/petibm/type.h, src/misc/type.cpp and src/private/private.h. *)
From Coq Require Import String.
From Verif Require Import Prelude.
Local Open Scope Z_scope.

(** Directions, fields and boundary locations are used as array indices all
    over the code, so they are modelled by their integer values.
    include/petibm/type.h:67-72 (Dir: x=0,y=1,z=2), 80-87 (Field: u=0, v=1,
    w=2, p=3, vertex=4), 106-114 (BCLoc: XMINUS=0, XPLUS=1, YMINUS=2, YPLUS=3,
    ZMINUS=4, ZPLUS=5). *)
Definition dirX : Z := 0.
Definition dirY : Z := 1.
Definition dirZ : Z := 2.
Definition fU : Z := 0.
Definition fV : Z := 1.
Definition fW : Z := 2.
Definition fP : Z := 3.
Definition fVertex : Z := 4.
Definition XMINUS : Z := 0.
Definition XPLUS : Z := 1.
Definition YMINUS : Z := 2.
Definition YPLUS : Z := 3.
Definition ZMINUS : Z := 4.
Definition ZPLUS : Z := 5.

(** include/petibm/type.h: BCType (NOBC is the zero enumerator). *)
Inductive bctype := NOBC | PERIODIC | DIRICHLET | NEUMANN | CONVECTIVE.

Definition bctype_eqb (a b : bctype) : bool :=
  match a, b with
  | NOBC, NOBC | PERIODIC, PERIODIC | DIRICHLET, DIRICHLET
  | NEUMANN, NEUMANN | CONVECTIVE, CONVECTIVE => true
  | _, _ => false
  end.

(** include/petibm/type.h: ProbeType (POINT is the zero enumerator). *)
Inductive probetype := POINT | LINE | SURFACE | VOLUME.

(** A std::map<std::string, T> literal. *)
Fixpoint assoc {T} (l : list (string * T)) (s : string) : option T :=
  match l with
  | [] => None
  | (k, v) :: t => if String.eqb k s then Some v else assoc t s
  end.

(** std::map::operator[] : an absent key is inserted with the
    value-initialised enumerator (the one whose value is 0). The insertion
    itself is not modelled: later look-ups of the same key give the same value. *)
Definition map_get {T} (l : list (string * T)) (dflt : T) (s : string) : T :=
  match assoc l s with Some v => v | None => dflt end.

Local Open Scope string_scope.
(** src/misc/type.cpp:16 *)
Definition str2dir_tab : list (string * Z) := [("x", dirX); ("y", dirY); ("z", dirZ)].
(** src/misc/type.cpp:21-22 *)
Definition str2fd_tab : list (string * Z) :=
  [("u", fU); ("v", fV); ("w", fW); ("p", fP); ("vertex", fVertex)].
(** src/misc/type.cpp:28-32 *)
Definition str2bt_tab : list (string * bctype) :=
  [("NOBC", NOBC); ("DIRICHLET", DIRICHLET); ("NEUMANN", NEUMANN);
   ("CONVECTIVE", CONVECTIVE); ("PERIODIC", PERIODIC)].
(** src/misc/type.cpp:41-46 *)
Definition str2bl_tab : list (string * Z) :=
  [("left", XMINUS); ("right", XPLUS); ("bottom", YMINUS); ("top", YPLUS);
   ("back", ZMINUS); ("front", ZPLUS); ("xMinus", XMINUS); ("xPlus", XPLUS);
   ("yMinus", YMINUS); ("yPlus", YPLUS); ("zMinus", ZMINUS); ("zPlus", ZPLUS);
   ("XMINUS", XMINUS); ("XPLUS", XPLUS); ("YMINUS", YMINUS); ("YPLUS", YPLUS);
   ("ZMINUS", ZMINUS); ("ZPLUS", ZPLUS)].
(** src/misc/type.cpp:53-55 *)
Definition str2pt_tab : list (string * probetype) :=
  [("POINT", POINT); ("LINE", LINE); ("SURFACE", SURFACE); ("VOLUME", VOLUME)].

(** src/parser/parser.cpp:57-63, 77-83, 97-102, 116-122 : YAML decoders. *)
Definition decode_dir (s : string) : Z := map_get str2dir_tab dirX s.
Definition decode_field (s : string) : Z := map_get str2fd_tab fU s.
Definition decode_bctype (s : string) : bctype := map_get str2bt_tab NOBC s.
Definition decode_bcloc (s : string) : Z := map_get str2bl_tab XMINUS s.
(** src/misc/probes.cpp:33-34 uses str2ProbeType[...] the same way. *)
Definition decode_probetype (s : string) : probetype := map_get str2pt_tab POINT s.
Local Close Scope string_scope.

(** PETSc's MatStencil {k, j, i, c}. *)
Record stencil := mkSt { sk : Z; sj : Z; si : Z; sc : Z }.

Definition stencil_eqb (a b : stencil) : bool :=
  (sk a =? sk b) && (sj a =? sj b) && (si a =? si b) && (sc a =? sc b).

(** src/private/private.h:20-34, operator< on MatStencil. *)
Definition stencil_lt (l r : stencil) : bool :=
  if sk l <? sk r then true
  else if sk l >? sk r then false
  else if sj l <? sj r then true
  else if sj l >? sj r then false
  else if si l <? si r then true
  else if si l >? si r then false
  else if sc l <? sc r then true
  else false.
