(** Vocabulary for the two builds: what of a goroutine in the safe build is visible. *)
From Verif Require Import Base Conc CasModel.

(** The goroutine is not inside one of the functions of cas_safe.go, and its state is [l]. *)
Definition outside {P L} (t : @hthread P L) (l : L) : Prop := t = HOut l.
Definition inside {P L} (t : @hthread P L) : Prop := forall l, t <> HOut l.
(** The calls made in a schedule, in order. *)
Definition spawned {C} (sched : list (action C)) : list C :=
  concat (map (fun a => match a with Spawn c => [c] | Run _ => [] end) sched).
(** [f] maps schedules of one build to schedules of the other, step by step: what happened
    first is mapped to what happens first, and calls start in the same order. *)
Definition stepwise {C} (f : list (action C) -> list (action C)) : Prop :=
  (forall pre post, exists more, f (pre ++ post) = f pre ++ more) /\ (forall sched, spawned (f sched) = spawned sched).
(** Outside of the pointer functions nothing touches the pointers. *)
Definition only_through {A P S L} (get : A -> S -> P) (prog : nat -> L -> stmt A P S L) : Prop :=
  forall i l f a s, prog i l = Other f -> get a (fst (f s)) = get a s.
(** Whatever the safe build does, the other could have done: step by step, with the same
    shared state at every moment and every goroutine outside of the pointer functions in
    the same state. *)
Definition does_no_more {P S L C} (safe : list (action C) -> config (S * option nat) (@hthread P L)) (unsafe : list (action C) -> config S L) : Prop :=
  exists f, stepwise f /\ forall sched,
    shared (unsafe (f sched)) = fst (shared (safe sched)) /\
    length (threads (unsafe (f sched))) = length (threads (safe sched)) /\
    forall i l, threads (safe sched) !! i = Some (HOut l) -> threads (unsafe (f sched)) !! i = Some l.
(** And conversely, with no goroutine left inside the pointer functions. *)
Definition does_no_less {P S L C} (safe : list (action C) -> config (S * option nat) (@hthread P L)) (unsafe : list (action C) -> config S L) : Prop :=
  forall sched, exists sched', spawned sched' = spawned sched /\
    safe sched' = Cfg (shared (unsafe sched), None) (map HOut (threads (unsafe sched))).
