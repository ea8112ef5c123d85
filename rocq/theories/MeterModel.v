(** Meter and DiffMeter: meter.go 24-181.  Every method runs under e.mtx, so a
    concurrent execution (callers plus the ticker goroutine, 199-210) is a
    sequence of these operations.  Times are nanoseconds since an arbitrary
    origin; int64 counts wrap. *)
From Verif Require Import Base SeriesModel Fval.
Local Open Scope Z_scope.

(** meter.go 25 *)
Definition ticksToKeep : nat := 24.

(** meterBucket, meter.go 33-36 *)
Record bucket := Bucket { b_count : Z; b_start : Z }.

(** Meter, meter.go 52-57; [m_slices] always has length [ticksToKeep]. *)
Record meter := Meter { m_total : Z; m_slices : list bucket }.

(** NewMeter, meter.go 60-68 (registration with the ticker: see [MTick] below) *)
Definition meter_new (now : Z) : meter := Meter 0 (replicate ticksToKeep (Bucket 0 now)).

(** Reset, meter.go 73-82 *)
Definition meter_Reset (m : meter) (new_total now : Z) : meter :=
  Meter new_total (map (fun _ => Bucket 0 now) (m_slices m)).

(** SetTotal, meter.go 85-89 *)
Definition meter_SetTotal (m : meter) (total : Z) : meter := Meter total (m_slices m).

(** Mark / Mark64, meter.go 92-103 (int is 64 bits wide) *)
Definition meter_Mark (m : meter) (amount : Z) : meter :=
  Meter (m_total m)
    (alter (fun b => Bucket (wrap64 (b_count b + amount)) (b_start b)) (ticksToKeep - 1)%nat (m_slices m)).

(** Go's built-in copy(dst, src): overwrites a prefix of dst. *)
Definition go_copy {A} (dst src : list A) : list A :=
  take (length dst) src ++ drop (length src) dst.

(** tick, meter.go 105-115 *)
Definition meter_tick (m : meter) (now : Z) : meter :=
  match m_slices m !! (ticksToKeep - 1)%nat, m_slices m !! 0%nat with
  | Some lastb, Some firstb =>
      if negb (b_count lastb =? 0) then
        let total := wrap64 (m_total m + b_count firstb) in
        let slices := go_copy (m_slices m) (drop 1 (m_slices m)) in
        Meter total (<[(ticksToKeep - 1)%nat := Bucket 0 now]> slices)
      else m
  | _, _ => m
  end.

(** stats, meter.go 117-134: the rate (None is the literal 0, Some (c, d) is
    float64(c)/Duration(d).Seconds(); the latter is positive iff d is) and the total *)
Definition meter_stats (m : meter) (now : Z) : option (Z * Z) * Z :=
  let start := match m_slices m with b :: _ => b_start b | [] => now end in
  let current := fold_left (fun acc b => wrap64 (acc + b_count b)) (m_slices m) 0 in
  let total := wrap64 (m_total m + current) in
  let duration := now - start in
  (if 0 <? duration then Some (current, duration) else None, total).

(** Rate, Total, Stats, meter.go 137-153 *)
Definition rate_val (r : option (Z * Z)) : fval :=
  match r with Some (c, d) => FRatio c d | None => FInt 0 end.
Definition meter_Rate (m : meter) (now : Z) : fval := rate_val (fst (meter_stats m now)).
Definition meter_Total (m : meter) (now : Z) : fval := FInt (snd (meter_stats m now)).
Definition meter_Stats (m : meter) (now : Z) : list (bytes * fval) :=
  [(B "rate", meter_Rate m now); (B "total", meter_Total m now)].

(** DiffMeter.Stats, meter.go 175-181 *)
Definition diffmeter_Stats (m1 m2 : meter) (now : Z) : list (bytes * fval) :=
  let '(r1, t1) := meter_stats m1 now in
  let '(r2, t2) := meter_stats m2 now in
  [(B "rate", FSub (rate_val r1) (rate_val r2)); (B "total", FInt (wrap64 (t1 - t2)))].

Inductive meter_op :=
| MMark (amount : Z)
| MTick (now : Z)        (** the ticker goroutine, meter.go 199-210 *)
| MSetTotal (total : Z)
| MReset (new_total now : Z).

Definition meter_step (m : meter) (o : meter_op) : meter :=
  match o with
  | MMark a => meter_Mark m a
  | MTick now => meter_tick m now
  | MSetTotal t => meter_SetTotal m t
  | MReset t now => meter_Reset m t now
  end.
Definition meter_run (t0 : Z) (h : list meter_op) : meter := fold_left meter_step h (meter_new t0).
