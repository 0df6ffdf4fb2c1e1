(** What it means that no object is lost or used after it is freed. *)
From Verif Require Import Prelude LifeModel.
Local Open Scope Z_scope.

(** An object the program can still get at: a variable holds it, or an object
    that can be got at refers to it. *)
Inductive reachable (h : heap) : Z -> Prop :=
| held_by_variable s i : find_var (h_vars h) s = Some (Some i) -> reachable h i
| held_by_object j o i : reachable h j -> find_obj (h_objs h) j = Some o -> In i (o_refs o) -> reachable h i.

(** No object is alive that the program cannot get at any more. *)
Definition no_garbage (h : heap) : Prop := forall i o, find_obj (h_objs h) i = Some o -> reachable h i.

(** No object is alive at all. *)
Definition nothing_alive (h : heap) : Prop := h_objs h = [].

(** The object a variable holds, and its class. *)
Definition holds (h : heap) (s : slot) (k : kind) : Prop :=
  exists i o, find_var (h_vars h) s = Some (Some i) /\ find_obj (h_objs h) i = Some o /\ o_kind o = k.

(** Two memories in which the same variables hold objects of the same classes. *)
Definition same_holdings (h h' : heap) : Prop := forall s k, holds h s k <-> holds h' s k.

(** The data of a run: two or three dimensions, at least one term in the
    approximate inverse, and probes on components that exist. *)
Definition field_of (sh : shape) (p : pshape) : Z := match p with PVolume f _ => f | PPoint f => f end.
Definition wf_shape (sh : shape) : Prop :=
  (s_dim sh = 2 \/ s_dim sh = 3) /\ 0 <= s_conv sh /\ 0 <= s_diff sh /\ 1 <= s_bn sh /\ 0 <= s_bodies sh /\
  (forall p, In p (s_probes sh) -> 0 <= field_of sh p < s_dim sh \/ field_of sh p = 3).

(** The variables that are members of the solvers and of what they own, against
    the locals of the functions. *)
Definition probe_sum (s : slot) : Prop := match s with SpDvec _ => True | _ => False end.

(** The number of references the object of a variable holds. *)
Definition refers (h : heap) (s : slot) (n : Z) : Prop :=
  exists i o, find_var (h_vars h) s = Some (Some i) /\ find_obj (h_objs h) i = Some o /\ lenZ (o_refs o) = n.

(** An object that is alive and that the program cannot get at any more. *)
Definition lost (h : heap) : Prop := exists i o, find_obj (h_objs h) i = Some o /\ ~ reachable h i.

(** A library user who calls [call] k times on matrices of their own and frees
    each result and, at the end, the matrices. *)
Definition library_user (own : list slot) (call : list op) (out : slot) (k : nat) : list op :=
  map (fun s => ONew s KMat []) own ++ concat (repeat (call ++ [ODrop out]) k) ++ map ODrop own.

(** The operation is on the variable. *)
Definition names (o : op) (s : slot) : Prop :=
  match o with
  | ONull t | ONewIf t _ | OClear t _ | ODrop t | OLeave t => t = s
  | ONew t _ ps => t = s \/ exists p, In p ps /\ p_slot p = s
  | OLink t _ p => t = s \/ p_slot p = s
  | OGive t _ u _ | OMove t u _ => t = s \/ u = s
  | OUse p => p_slot p = s
  end.
