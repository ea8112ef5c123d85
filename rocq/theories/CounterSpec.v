(** Specification vocabulary for counters: the values a counter took. *)
From Verif Require Export SpecBase.
From Verif Require Import Base CounterModel Fval.
Local Open Scope Z_scope.

(** The values taken since construction or the last Reset, newest last. *)
Definition take_value (vs : list Z) (o : counter_op) : list Z :=
  match o with
  | CSet v => vs ++ [v]
  | CInc d => vs ++ [wrap64 (latest vs + d)]
  | CDec d => vs ++ [wrap64 (latest vs - d)]
  | CReset => []
  end.
Definition values_taken (h : list counter_op) : list Z := fold_left take_value h [].

(** The net effect of increments and decrements. *)
Definition delta_of (o : counter_op) : Z :=
  match o with CInc d => d | CDec d => - d | _ => 0 end.
Definition sum_deltas (h : list counter_op) : Z := foldr (fun o s => delta_of o + s) 0 h.
Definition only_deltas (h : list counter_op) : Prop :=
  Forall (fun o => match o with CInc _ | CDec _ => True | _ => False end) h.
