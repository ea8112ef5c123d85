(** Distributions: intdist.go / durdist.go / floatdist.go (all generated from
    distgen.go.m4), dist.go 21-44.

    The model is generic in the value type [V] (int64, time.Duration or float64)
    with the operations the code uses on it, in the reservoir's element type [F]
    (float32) with the conversion from [V] and the comparison of
    float32Slice.Less, and in the random number generator.  The numeric
    interpolation of Query is in QueryModel.v; here Query's effect on the state
    and the list it reads. *)
From Verif Require Import Base.
Local Open Scope Z_scope.

(** dist.go 22 *)
Definition ReservoirSize : Z := 64.

Section dist.
  Context {V F R : Type}.
  Context (vzero : V) (vlt : V -> V -> bool) (vadd : V -> V -> V).
  Context (fzero : F) (to32 : V -> F) (fless : F -> F -> bool).
  Context (rng_next : R -> Z * R).      (* a uint64 and the new generator state *)

  (** intdist.go 28-48; [d_res] always has 64 elements *)
  Record dist := Dist {
    d_low : V; d_high : V; d_recent : V; d_count : Z; d_sum : V;
    d_res : list F; d_rng : R; d_sorted : bool
  }.

  (** NewIntDist / initIntDist, intdist.go 50-60; [r] is the freshly seeded generator *)
  Definition dist_new (r : R) : dist :=
    Dist vzero vzero vzero 0 vzero (replicate 64 fzero) r false.

  (** Writing d.reservoir[i] panics when out of range. *)
  Definition set_slot (res : list F) (i : Z) (v : F) : outcome (list F) :=
    if (0 <=? i) && (i <? Z.of_nat (length res)) then Ok (<[Z.to_nat i := v]> res)
    else Panic (B "index out of range").

  (** Insert, intdist.go 63-97.  [Window] is the package variable (dist.go 29). *)
  Definition dist_insert (Window : Z) (d : dist) (val : V) : outcome dist :=
    let low := if negb (d_count d =? 0) then (if vlt val (d_low d) then val else d_low d) else val in
    let high := if negb (d_count d =? 0) then (if vlt (d_high d) val then val else d_high d) else val in
    let sum := vadd (d_sum d) val in
    let index := d_count d in
    let count := wrap64 (d_count d + 1) in
    if index <? ReservoirSize then
      match set_slot (d_res d) index (to32 val) with
      | Ok res => Ok (Dist low high val count sum res (d_rng d) false)
      | Panic m => Panic m
      end
    else
      let window := if (0 <? Window) && (Window <? count) then Window else count in
      let (x, rng) := rng_next (d_rng d) in
      if u64 window =? 0 then Panic (B "integer divide by zero")
      else
        let j := x mod (u64 window) in
        if j <? ReservoirSize then
          match set_slot (d_res d) j (to32 val) with
          | Ok res => Ok (Dist low high val count sum res rng false)
          | Panic m => Panic m
          end
        else Ok (Dist low high val count sum (d_res d) rng (d_sorted d)).

  (** rlen in Query, intdist.go 126-129, and amount in ReservoirAverage, 109-112 *)
  Definition rlen (d : dist) : Z := if d_count d <? ReservoirSize then d_count d else ReservoirSize.

  (** The effect of Query on the state, intdist.go 131-139: sorts the used prefix
      of the reservoir in place unless it is known to be sorted. *)
  Definition query_state (d : dist) : dist :=
    if rlen d <? 2 then d
    else if d_sorted d then d
    else
      let n := Z.to_nat (rlen d) in
      Dist (d_low d) (d_high d) (d_recent d) (d_count d) (d_sum d)
           (isort fless (take n (d_res d)) ++ drop n (d_res d)) (d_rng d) true.

  (** The elements Query's result is computed from, intdist.go 131-153: with fewer
      than two observations just reservoir[0], else the (now sorted) prefix. *)
  Definition query_reads (d : dist) : list F :=
    if rlen d <? 2 then take 1 (d_res d)
    else take (Z.to_nat (rlen d)) (d_res (query_state d)).

  (** The elements ReservoirAverage adds up, intdist.go 108-121 (none: returns 0) *)
  Definition average_reads (d : dist) : list F :=
    if rlen d <=? 0 then [] else take (Z.to_nat (rlen d)) (d_res d).

  (** Copy, intdist.go 157-161: the copy gets a freshly seeded generator *)
  Definition dist_copy (d : dist) (r : R) : dist :=
    Dist (d_low d) (d_high d) (d_recent d) (d_count d) (d_sum d) (d_res d) r (d_sorted d).

  (** Reset, intdist.go 163-166 *)
  Definition dist_reset (d : dist) : dist :=
    Dist vzero vzero vzero 0 vzero (d_res d) (d_rng d) (d_sorted d).

  Inductive dist_op :=
  | DInsert (v : V)
  | DQuery                (** Query with any quantile *)
  | DAverage              (** ReservoirAverage: reads only *)
  | DCopy (r : R)         (** continue with the copy *)
  | DReset.

  (** Runs a history; a panic stops it. [W] gives the value of Window at each
      insert (it is a public variable and may be changed at any time). *)
  Definition dist_step (W : Z) (d : dist) (o : dist_op) : outcome dist :=
    match o with
    | DInsert v => dist_insert W d v
    | DQuery => Ok (query_state d)
    | DAverage => Ok d
    | DCopy r => Ok (dist_copy d r)
    | DReset => Ok (dist_reset d)
    end.
  Fixpoint dist_run (d : dist) (h : list (Z * dist_op)) : outcome dist :=
    match h with
    | [] => Ok d
    | (W, o) :: h' =>
        match dist_step W d o with
        | Ok d' => dist_run d' h'
        | Panic m => Panic m
        end
    end.
End dist.
Arguments dist V F R : clear implicits.
Arguments dist_op V R : clear implicits.

(** The int64 / time.Duration instance: integer comparison, wrapping addition;
    float32 conversion, float32 order and the generator stay parameters. *)
Definition idist_insert {F R} (to32 : Z -> F) (rng_next : R -> Z * R) :=
  dist_insert Z.ltb (fun x y => wrap64 (x + y)) to32 rng_next.
Definition idist_new {F R} (fzero : F) (r : R) : dist Z F R := dist_new 0 fzero r.
Definition idist_run {F R} (to32 : Z -> F) (fless : F -> F -> bool) (rng_next : R -> Z * R) :=
  dist_run 0 Z.ltb (fun x y => wrap64 (x + y)) to32 fless rng_next.

(** FullAverage, intdist.go 100-105: Go's integer division truncates, and
    overflows only for MinInt64 / -1, impossible here. *)
Definition idist_FullAverage {F R} (d : dist Z F R) : Z :=
  if 0 <? d_count d then Z.quot (d_sum d) (d_count d) else 0.
