(** The order in which SpansToSVG draws: StartTimeSorter. *)
From Verif Require Import Base LayoutModel SvgModel.
Local Open Scope Z_scope.

(** collect/collect.go 152-154: Less. time.Time.UnixNano is the time in nanoseconds since 1970
    modulo 2^64, as an int64. *)
Definition start_less (a b : vspan) : bool := wrap64 (sp_start (vs_span a)) <? wrap64 (sp_start (vs_span b)).
(** collect.go 156 and sort.Sort: a permutation of the slice in which no element is less than
    one before it. sort.Sort is not stable: of spans that start together any may come first. *)
Definition start_time_sort (spans sorted : list vspan) : Prop :=
  sorted ≡ₚ spans /\ forall i j a b, (i < j)%nat -> sorted !! i = Some a -> sorted !! j = Some b -> start_less b a = false.
(** present/trace.go 247-371: SpansToSVG, 262 included *)
Definition draws (zero_time : Z) (fuel : nat) (order : list Z) (spans : list vspan) (doc : bytes) : Prop :=
  exists sorted, start_time_sort spans sorted /\ spans_to_svg zero_time fuel order spans sorted = Some doc.
