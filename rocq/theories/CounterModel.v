(** Counter: counter.go 33-128.  Every method runs under c.mtx, so a concurrent
    execution is a sequence of these operations. *)
From Verif Require Import Base SeriesModel Fval.

(** counter.go 33-38 *)
Record counter := Counter { c_val : Z; c_low : Z; c_high : Z; c_nonempty : bool }.

(** NewCounter, counter.go 41-43 *)
Definition counter_new : counter := Counter 0 0 0 false.

(** set, counter.go 45-54.  The two ifs test the old nonempty flag. *)
Definition counter_set (c : counter) (val : Z) : counter :=
  Counter val
    (if negb (c_nonempty c) || (val <? c_low c)%Z then val else c_low c)
    (if negb (c_nonempty c) || (c_high c <? val)%Z then val else c_high c)
    true.

(** Set, counter.go 59-65 *)
Definition counter_Set (c : counter) (val : Z) : counter * Z := (counter_set c val, c_val c).

(** Inc, counter.go 68-74: int64 addition wraps *)
Definition counter_Inc (c : counter) (delta : Z) : counter * Z :=
  let c' := counter_set c (wrap64 (c_val c + delta)) in (c', c_val c').

(** Dec, counter.go 77-79: int64 negation wraps *)
Definition counter_Dec (c : counter) (delta : Z) : counter * Z :=
  counter_Inc c (wrap64 (- delta)).

(** High, Low, Current, counter.go 82-103 *)
Definition counter_High (c : counter) : Z := c_high c.
Definition counter_Low (c : counter) : Z := c_low c.
Definition counter_Current (c : counter) : Z := c_val c.

(** Reset, counter.go 107-113 *)
Definition counter_Reset (c : counter) : counter * (Z * Z * Z) :=
  (Counter 0 0 0 false, (c_val c, c_low c, c_high c)).

(** Stats, counter.go 116-128: the sequence of (field, value) callbacks *)
Definition counter_Stats (c : counter) : list (bytes * fval) :=
  (if c_nonempty c then [(B "high", FInt (c_high c)); (B "low", FInt (c_low c))]
   else [(B "high", FNaN); (B "low", FNaN)]) ++ [(B "value", FInt (c_val c))].

Inductive counter_op := CSet (v : Z) | CInc (d : Z) | CDec (d : Z) | CReset.

(** One state-changing call; what it returns is [counter_result]. *)
Definition counter_step (c : counter) (o : counter_op) : counter :=
  match o with
  | CSet v => fst (counter_Set c v)
  | CInc d => fst (counter_Inc c d)
  | CDec d => fst (counter_Dec c d)
  | CReset => fst (counter_Reset c)
  end.
Definition counter_result (c : counter) (o : counter_op) : list Z :=
  match o with
  | CSet v => [snd (counter_Set c v)]
  | CInc d => [snd (counter_Inc c d)]
  | CDec d => [snd (counter_Dec c d)]
  | CReset => let '(v, l, h) := snd (counter_Reset c) in [v; l; h]
  end.
Definition counter_run (h : list counter_op) : counter := fold_left counter_step h counter_new.
