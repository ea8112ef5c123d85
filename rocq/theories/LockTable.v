(** * The order in which monkit takes its locks

    Not part of any statement. *)
From Verif Require Import RaceModel RaceCheck RaceCode RaceTable LockCheck.

(** Locks under which others are taken come first; the rest are taken by themselves. *)
Definition lock_rank (c l : string) : option nat :=
  assoc [("Task.initOnce", 0); ("Scope.mtx", 1); ("ticker.mtx", 2);
         ("Span.mtx", 1); ("registryInternal.orphanMtx", 2);
         ("frame.mtx", 1); ("remote.traceMtx", 1); ("Trace.mtx", 2);
         ("registryInternal.watcherMtx", 1); ("registryInternal.scopeMtx", 1); ("registryInternal.spanMtx", 1);
         ("Func.Mutex", 1); ("FuncStats.Mutex", 1); ("Counter.mtx", 1); ("Meter.mtx", 1);
         ("IntVal.mtx", 1); ("FloatVal.mtx", 1); ("DurationVal.mtx", 1); ("StructVal.mtx", 1); ("Timer.mtx", 1);
         ("errorNameHandlers.write_mu", 1); ("SpanCollector.mtx", 1); ("DeltaTransformer.mtx", 1);
         ("keepAlive.mu", 1); ("keepAlive.once", 1); ("crcCache.once", 1)]
    (c ++ "." ++ l)%string.

Definition lock_quiet (c l : string) : bool :=
  existsb (fun p => String.eqb p.1 c && String.eqb p.2 l)
    [("Func", "Mutex"); ("FuncStats", "Mutex"); ("keepAlive", "mu"); ("remote", "traceMtx")].
