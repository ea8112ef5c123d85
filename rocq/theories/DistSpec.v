(** Specification vocabulary for distributions. *)
From Verif Require Export SpecBase.
From Verif Require Import Base DistModel.
Local Open Scope Z_scope.

(** The values inserted since construction or the last Reset, oldest first. *)
Definition recorded {V R} (h : list (Z * dist_op V R)) : list V :=
  fold_left (fun xs wo => match snd wo with
                          | DInsert v => xs ++ [v]
                          | DReset => []
                          | _ => xs
                          end) h [].

(** The number of inserts in a history (the int64 counter does not overflow). *)
Definition inserts {V R} (h : list (Z * dist_op V R)) : Z :=
  Z.of_nat (length (List.filter (fun wo => match snd wo with DInsert _ => true | _ => false end) h)).

(** [held] consists of float32 images of distinct insertions among [xs]: the
    insertions [ys] are a sub-multiset of [xs]. *)
Definition images_of_distinct {V F} (to32 : V -> F) (held : list F) (xs : list V) : Prop :=
  exists ys, ys ⊆+ xs /\ held ≡ₚ map to32 ys.

(** How many of the numbers 0 .. n-1 satisfy P. *)
Fixpoint count_below (P : Z -> bool) (n : nat) : Z :=
  match n with
  | O => 0
  | S n' => count_below P n' + (if P (Z.of_nat n') then 1 else 0)
  end.

(** What can be observed of a distribution without looking into it: Low, High,
    Recent, Count, Sum, the elements ReservoirAverage averages, and - once something
    was recorded - the elements Query interpolates. *)
Definition visible {V F R} (fless : F -> F -> bool) (d : dist V F R)
  : V * V * V * Z * V * list F * option (list F) :=
  (d_low d, d_high d, d_recent d, d_count d, d_sum d, average_reads d,
   if decide (d_count d = 0) then None else Some (query_reads fless d)).
