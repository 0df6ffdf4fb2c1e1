(** Specification vocabulary for the index functions. *)
From Verif Require Import Prelude ZSum TypesModel IndexModel.
Local Open Scope Z_scope.

(** A point of a field of sizes n. *)
Definition interior (n : Z -> Z) (p : Z * Z * Z) : Prop :=
  let '(i, j, k) := p in 0 <= i < n 0 /\ 0 <= j < n 1 /\ 0 <= k < n 2.

(** The one-point frame around the domain: -1 .. n in every direction. *)
Definition in_frame (n : Z -> Z) (p : Z * Z * Z) : Prop :=
  let '(i, j, k) := p in -1 <= i <= n 0 /\ -1 <= j <= n 1 /\ -1 <= k <= n 2.

Definition outside (n i : Z) : bool := (i <? 0) || (i >=? n).
(** Number of coordinates outside of the domain. *)
Definition n_outside (n : Z -> Z) (p : Z * Z * Z) : Z :=
  let '(i, j, k) := p in
  (if outside (n 0) i then 1 else 0) + (if outside (n 1) j then 1 else 0) + (if outside (n 2) k then 1 else 0).

(** Periodic image. *)
Definition wrap (n i : Z) : Z := i mod n.
Definition image (n : Z -> Z) (p : Z * Z * Z) : Z * Z * Z :=
  let '(i, j, k) := p in (wrap (n 0) i, wrap (n 1) j, wrap (n 2) k).
(** Does the point have an image: every outside coordinate is in a periodic
    direction. *)
Definition has_image (n : Z -> Z) (per : Z -> bool) (p : Z * Z * Z) : bool :=
  let '(i, j, k) := p in
  implb (outside (n 0) i) (per 0) && implb (outside (n 1) j) (per 1) && implb (outside (n 2) k) (per 2).

(** Sizes of a field: positive, and one layer in the third direction in 2D. *)
Definition sizes_ok (dim : Z) (n : Z -> Z) : Prop :=
  (dim = 2 \/ dim = 3) /\ 1 <= n 0 /\ 1 <= n 1 /\ 1 <= n 2 /\ (dim = 2 -> n 2 = 1).

(** A decomposition of a field of sizes n over a process grid: every slab owns
    a non-negative number of points and the slabs add up to n. *)
Definition dec_ok (D : dec) (n : Z -> Z) (f : Z) : Prop :=
  (forall d, 0 <= d < 3 -> 1 <= ds_np D d) /\
  (forall d, 0 <= d < 3 ->
     (forall q, 0 <= q < ds_np D d -> 0 <= ds_l D f d q) /\ isum (ds_l D f d) 0 (ds_np D d) = n d).

(** The layout of the composite (packed) velocity vector: rank by rank; on each
    rank component by component; for each component its local points in storage
    order. *)
Definition packed_layout (dim : Z) (D : dec) : list (Z * (Z * Z * Z)) :=
  flat_map (fun r => flat_map (fun f => map (fun p => (f, p)) (local_points D f r)) (zrange 0 dim))
           (zrange 0 (nranks D)).

(** Layout of the vector of a single field. *)
Definition field_layout (D : dec) (f : Z) : list (Z * Z * Z) :=
  flat_map (local_points D f) (zrange 0 (nranks D)).

(** Number of points of a field. *)
Definition npoints (n : Z -> Z) : Z := n 0 * n 1 * n 2.

(** * Periodic boundary conditions *)

(** Boundary-condition tables that make sense: opposite boundaries are periodic
    together, and in each direction either no component is periodic or all
    simulated components are. The third component is not simulated when all of
    its entries are NOBC. *)
Definition sim_dim_is (bc : Z -> Z -> bctype) (dim : Z) : Prop :=
  (dim = 2 /\ (forall l, 0 <= l < 6 -> bc 2 l = NOBC)) \/
  (dim = 3 /\ (exists l, 0 <= l < 6 /\ bc 2 l <> NOBC)).

Definition bc_table_ok (bc : Z -> Z -> bctype) (dim : Z) : Prop :=
  (forall f d, 0 <= f < 3 -> 0 <= d < 3 -> (bc f (2 * d) = PERIODIC <-> bc f (2 * d + 1) = PERIODIC)) /\
  (forall d, 0 <= d < 3 ->
     (forall f, 0 <= f < 3 -> bc f (2 * d) <> PERIODIC) \/
     (forall f, 0 <= f < dim -> bc f (2 * d) = PERIODIC)).

(** * Stencil order *)
Definition lex_lt (a b : stencil) : Prop :=
  sk a < sk b \/ sk a = sk b /\ (sj a < sj b \/ sj a = sj b /\ (si a < si b \/ si a = si b /\ sc a < sc b)).

(** * Loops *)
(** Run a body over a list of indices, stopping at the first failure. *)
Fixpoint run_seq {I S : Type} (body : I -> S -> S * Z) (l : list I) (s : S) : S * Z :=
  match l with
  | [] => (s, 0)
  | x :: t => let '(s', e) := body x s in if e =? 0 then run_seq body t s' else (s', e)
  end.

Definition lex2 (a b : Z * Z) : Prop := fst a < fst b \/ fst a = fst b /\ snd a < snd b.
Definition lex3 (a b : Z * Z * Z) : Prop := lex2 (fst a) (fst b) \/ fst a = fst b /\ snd a < snd b.
