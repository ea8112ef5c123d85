(** Specification vocabulary shared by several areas. *)
From Verif Require Import Base.
Local Open Scope Z_scope.

(** The last element of a history of values, 0 when there is none. *)
Definition latest (vs : list Z) : Z := default 0 (last vs).

(** [m] is the largest / smallest element of [vs], or 0 when there is none. *)
Definition largest (vs : list Z) (m : Z) : Prop :=
  match vs with [] => m = 0 | _ => m ∈ vs /\ Forall (fun v => v <= m) vs end.
Definition smallest (vs : list Z) (m : Z) : Prop :=
  match vs with [] => m = 0 | _ => m ∈ vs /\ Forall (fun v => m <= v) vs end.

Definition zsum (l : list Z) : Z := foldr Z.add 0 l.
