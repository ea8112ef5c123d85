(** Properties C50 (Windows clock) and C51 (spin lock). *)
From Verif Require Import Base Conc ClockModel ClockProofs.
Local Open Scope Z_scope.

(** C50: while (ticks elapsed) * 10^9 fits in 63 bits, the clock shows the
    elapsed ticks in nanoseconds rounded down, ... *)
Theorem C50_clock_exact :
  forall freq base t,
    0 < freq -> freq < 2 ^ 63 -> in64 base -> in64 t -> base <= t -> (t - base) * 1000000000 < 2 ^ 63 ->
    win_elapsed freq base t = Ok ((t - base) * 1000000000 / freq).
Proof. exact win_elapsed_exact. Qed.
Print Assumptions C50_clock_exact.

(** ... hence never goes backwards. *)
Theorem C50_clock_monotone :
  forall freq base t1 t2,
    0 < freq -> freq < 2 ^ 63 -> in64 base -> in64 t2 -> base <= t1 <= t2 -> (t2 - base) * 1000000000 < 2 ^ 63 ->
    exists d1 d2, win_elapsed freq base t1 = Ok d1 /\ win_elapsed freq base t2 = Ok d2 /\ 0 <= d1 <= d2.
Proof. exact win_elapsed_mono. Qed.
Print Assumptions C50_clock_monotone.

Example C50_clock_example : win_elapsed 10000000 12345 9000012345 = Ok 900000000000.
Proof. reflexivity. Qed.

(** Without the bound it is false: at 10 MHz, between 900 s and 930 s after start. *)
Theorem C50_clock_monotone_refuted :
  exists freq base t1 t2 d1 d2,
    0 < freq < 2 ^ 63 /\ in64 base /\ in64 t2 /\ base <= t1 <= t2 /\ t2 - base <= 1000 * freq /\
    win_elapsed freq base t1 = Ok d1 /\ win_elapsed freq base t2 = Ok d2 /\ d2 < d1.
Proof. exact win_elapsed_backwards. Qed.
Print Assumptions C50_clock_monotone_refuted.

(** C51: whatever the schedule, at most one thread is between Lock and Unlock. *)
Theorem C51_spin_lock_excludes :
  forall sched i j, let ts := threads (exec sl_start sl_step 0 sched) in
    ts !! i = Some SL_critical -> ts !! j = Some SL_critical -> i = j.
Proof. exact sl_mutex. Qed.
Print Assumptions C51_spin_lock_excludes.

(** When nobody holds the lock, the next attempt of any waiting thread succeeds. *)
Theorem C51_spin_lock_available :
  forall sched i, let c := exec sl_start sl_step 0 sched in
    threads c !! i = Some SL_cas -> (forall j, threads c !! j <> Some SL_critical) ->
    threads (exec sl_start sl_step 0 (sched ++ [Run i])) !! i = Some SL_critical.
Proof. exact sl_progress. Qed.
Print Assumptions C51_spin_lock_available.

(** The holder's Unlock leaves the lock with no holder. *)
Theorem C51_spin_lock_released :
  forall sched i, threads (exec sl_start sl_step 0 sched) !! i = Some SL_critical ->
    let c' := exec sl_start sl_step 0 (sched ++ [Run i]) in
    forall j, threads c' !! j <> Some SL_critical.
Proof. exact sl_holder_leaves. Qed.
Print Assumptions C51_spin_lock_released.

Example C51_contended : threads (exec sl_start sl_step 0 [Spawn tt; Spawn tt; Run 1; Run 0; Run 1; Run 0])
  = [SL_critical; SL_unlocked].
Proof. reflexivity. Qed.
