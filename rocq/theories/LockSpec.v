(** * Goroutines that wait for each other

    Stated of the states of RaceModel.v. *)
From Verif Require Import RaceModel.
From stdpp Require Import relations.

(** The next thing goroutine t does is to take lock l of o in mode m. *)
Definition wants (s : state) (t : tid) (m : mode) (o : obj) (l : string) : Prop :=
  exists e v k fs, thr s !! t = Some ((e, Lk m v l :: k) :: fs) /\ lookup_var e v = Some o.

(** Goroutine t has to wait for u: u holds the lock, and not both are readers; or t wants to read
    and u is waiting to write, for a waiting writer keeps new readers out (sync.RWMutex). *)
Definition waits (s : state) (t u : tid) : Prop :=
  exists m o l, wants s t m o l /\
    ((exists m', (u, m', o, l) ∈ held (mem s) /\ ~ (m = MR /\ m' = MR)) \/
     (m = MR /\ wants s u MW o l)).

(** Some goroutines wait for each other, or one for itself. *)
Definition deadlock (s : state) : Prop := exists t, tc (waits s) t t.

(** Goroutine t holds a lock. *)
Definition busy (s : state) (t : tid) : Prop := exists m o l, (t, m, o, l) ∈ held (mem s).

(** The call on top of the stack goes on, or it returns. *)
Definition goes_on (fs fs' : list (env * list cmd)) : Prop :=
  (exists e c k e' k' r, fs = (e, c :: k) :: r /\ fs' = (e', k') :: r) \/
  (exists e, fs = (e, []) :: fs').

(** Goroutine t, if it holds a lock, calls no function of the library and does not panic: only a
    function of the user that runs under the lock could do so. *)
Definition polite (s : state) (t : tid) (s' : state) : Prop :=
  busy s t -> exists fs fs', thr s !! t = Some fs /\ thr s' !! t = Some fs' /\ goes_on fs fs'.

(** States of executions in which that is always so. *)
Inductive polite_state (L : library) : state -> Prop :=
| ps_init : polite_state L (init_state L)
| ps_step s t oe s' : polite_state L s -> step L s t oe s' -> polite s t s' -> polite_state L s'.

(** A function of the user runs while the goroutine holds lock l of o. *)
Definition callback_under (s : state) (t : tid) (o : obj) (l : string) : Prop :=
  exists e k fs m, thr s !! t = Some ((e, User :: k) :: fs) /\ (t, m, o, l) ∈ held (mem s).
