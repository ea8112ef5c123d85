(** The Windows clock (monotime) and the spin lock. *)
From Verif Require Import Base Conc.
Local Open Scope Z_scope.

(** elapsed, monotime/monotime_windows.go 18-21: counter value [now], [base] = qpcBase,
    [freq] = qpcFrequency; int64 arithmetic with wrap and truncated division;
    time.Second = 10^9, time.Nanosecond = 1.  Division by zero panics. *)
Definition win_elapsed (freq base now : Z) : outcome Z :=
  let el := wrap64 (now - base) in
  let den := wrap64 (freq * 1) in
  if den =? 0 then Panic (B "integer divide by zero")
  else Ok (wrap64 (Z.quot (wrap64 (el * 1000000000)) den)).

(** spinLock, spinlock.go 22-35.  One thread = one use: Lock (a loop of
    CompareAndSwap(0,1); runtime.Gosched has no effect on memory), critical section,
    Unlock (store 0).  The shared state is the lock word. *)
Inductive sl_pc := SL_cas | SL_critical | SL_unlocked.
Definition sl_start (_ : unit) : sl_pc := SL_cas.
Definition sl_step (_ : nat) (w : Z) (pc : sl_pc) : Z * sl_pc :=
  match pc with
  | SL_cas => if w =? 0 then (1, SL_critical) else (w, SL_cas)   (* 24: CAS; 27: Gosched, retry *)
  | SL_critical => (0, SL_unlocked)                              (* 33: atomic store 0 *)
  | SL_unlocked => (w, SL_unlocked)
  end.
