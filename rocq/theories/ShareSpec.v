(** C92: what the files of a program of several processes should be. *)
From Coq Require Import String.
From Verif Require Import Prelude ZSum TypesModel ShareModel.
Local Open Scope list_scope.

Section S.
Context {A : Type}.
(** The processes take turns: between two barriers, process 0 does all it has to
    do, then process 1, and so on. [f] is the file looked at. *)
Definition one_fact (f : string) (c : option (list A)) (a : fact A) : option (list A) :=
  match a with
  | Trunc g => if String.eqb g f then Some [] else c
  | Add g x => if String.eqb g f then Some (match c with Some l => l ++ [x] | None => [x] end) else c
  | Look _ => c
  end.
Definition turn (f : string) (n : Z) (acts : Z -> list (fact A)) (c : option (list A)) : option (list A) :=
  fold_left (fun c r => fold_left (one_fact f) (acts r) c) (zrange 0 n) c.
Fixpoint in_turn (f : string) (n : Z) (P : fprog A) (k : nat) (c : option (list A)) : option (list A) :=
  match k with O => c | S j => turn f n (fphase P j) (in_turn f n P j c) end.

Definition writes_to (f : string) (a : fact A) : Prop := a = Trunc f \/ exists x, a = Add f x.
(** Between two barriers at most one process writes to [f], or all that is done
    to [f] is to empty it. *)
Definition calm (f : string) (n : Z) (acts : Z -> list (fact A)) : Prop :=
  (exists p, forall q a, (0 <= q < n)%Z -> q <> p -> In a (acts q) -> ~ writes_to f a) \/
  (forall q a, (0 <= q < n)%Z -> In a (acts q) -> writes_to f a -> a = Trunc f).
Definition untouched (f : string) (n : Z) (acts : Z -> list (fact A)) : Prop :=
  forall q a, (0 <= q < n)%Z -> In a (acts q) -> ~ writes_to f a.
End S.
