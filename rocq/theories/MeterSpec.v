(** Specification of meters: a never-truncated record of time buckets. *)
From Verif Require Export SpecBase.
From Verif Require Import Base MeterModel.
Local Open Scope Z_scope.

(** All buckets since construction or the last Reset, oldest first: how much was
    marked in each and when it started.  [l_base] is the amount accounted for
    outside the buckets, [l_skip] the number of oldest buckets it already covers. *)
Record ledger := Ledger { l_base : Z; l_skip : nat; l_buckets : list (Z * Z) }.

(** A new meter starts with a full window of empty buckets. *)
Definition ledger_new (base t0 : Z) : ledger := Ledger base 0 (replicate 24 (0, t0)).

Definition add_last (a : Z) (bs : list (Z * Z)) : list (Z * Z) :=
  match last bs with
  | Some (n, t) => removelast bs ++ [(wrap64 (n + a), t)]
  | None => bs
  end.
Definition marked_in_last (bs : list (Z * Z)) : Z :=
  match last bs with Some (n, _) => n | None => 0 end.

Definition ledger_step (l : ledger) (o : meter_op) : ledger :=
  match o with
  | MMark a => Ledger (l_base l) (l_skip l) (add_last a (l_buckets l))
  | MTick now =>
      (* a new bucket starts only if the newest one is not empty *)
      if decide (marked_in_last (l_buckets l) = 0) then l
      else Ledger (l_base l) (l_skip l) (l_buckets l ++ [(0, now)])
  | MSetTotal t =>
      (* replaces whatever has left the 24-bucket window *)
      Ledger t (length (l_buckets l) - 24) (l_buckets l)
  | MReset t now => ledger_new t now
  end.
Definition ledger_run (t0 : Z) (h : list meter_op) : ledger := fold_left ledger_step h (ledger_new 0 t0).

(** What the meter must report. *)
Definition ledger_total (l : ledger) : Z :=
  wrap64 (l_base l + zsum (map fst (drop (l_skip l) (l_buckets l)))).
Definition window (l : ledger) : list (Z * Z) := drop (length (l_buckets l) - 24) (l_buckets l).

(** The sum of all marks in a history. *)
Definition sum_marks (h : list meter_op) : Z :=
  zsum (map (fun o => match o with MMark a => a | _ => 0 end) h).
Definition marks_and_ticks (h : list meter_op) : Prop :=
  Forall (fun o => match o with MMark _ | MTick _ => True | _ => False end) h.
