(** The structs that package environment reports through StatSourceFromStruct: environment/rusage.go
    and the goroutines and memory part of runtime.go.  The structs are those of the standard library
    on Linux with 64-bit words (syscall.Rusage) and of its documentation (runtime.MemStats). *)
From Verif Require Import Base Fval StructModel.
Local Open Scope Z_scope.

(** An exported field without a tag. *)
Definition plain (name : bytes) (v : gval) : gfield := (name, true, [], v).
Definition num (name : bytes) (z : Z) : gfield := plain name (VNum (FInt z)).

(** syscall.Timeval and syscall.Rusage. *)
Record timeval := Timeval { tv_sec : Z; tv_usec : Z }.
Definition timeval_gval (t : timeval) : gval := VStruct [num (B "Sec") (tv_sec t); num (B "Usec") (tv_usec t)].
Record rusage := Rusage {
  ru_utime : timeval; ru_stime : timeval; ru_maxrss : Z; ru_ixrss : Z; ru_idrss : Z; ru_isrss : Z; ru_minflt : Z; ru_majflt : Z;
  ru_nswap : Z; ru_inblock : Z; ru_oublock : Z; ru_msgsnd : Z; ru_msgrcv : Z; ru_nsignals : Z; ru_nvcsw : Z; ru_nivcsw : Z }.
Definition rusage_gval (r : rusage) : gval :=
  VStruct [plain (B "Utime") (timeval_gval (ru_utime r)); plain (B "Stime") (timeval_gval (ru_stime r));
           num (B "Maxrss") (ru_maxrss r); num (B "Ixrss") (ru_ixrss r); num (B "Idrss") (ru_idrss r); num (B "Isrss") (ru_isrss r);
           num (B "Minflt") (ru_minflt r); num (B "Majflt") (ru_majflt r); num (B "Nswap") (ru_nswap r); num (B "Inblock") (ru_inblock r);
           num (B "Oublock") (ru_oublock r); num (B "Msgsnd") (ru_msgsnd r); num (B "Msgrcv") (ru_msgrcv r); num (B "Nsignals") (ru_nsignals r);
           num (B "Nvcsw") (ru_nvcsw r); num (B "Nivcsw") (ru_nivcsw r)].
(** Rusage, rusage.go 29-37: a pointer to the struct is given; [None]: Getrusage failed.  With the
    name of the series. *)
Definition series (name : bytes) (l : list (bytes * fval)) : list (bytes * bytes * fval) := map (fun s => (name, fst s, snd s)) l.
Definition rusage_stats (answer : option rusage) : list (bytes * bytes * fval) * bool :=
  match answer with
  | Some r => let p := struct_stats (VPtr (Some (rusage_gval r))) in (series (B "rusage") (fst p), snd p)
  | None => ([], false)
  end.

(** runtime.MemStats.  The arrays PauseNs, PauseEnd and BySize convert to neither float64 nor bool. *)
Record memstats := MemStats {
  ms_alloc : Z; ms_total_alloc : Z; ms_sys : Z; ms_lookups : Z; ms_mallocs : Z; ms_frees : Z;
  ms_heap_alloc : Z; ms_heap_sys : Z; ms_heap_idle : Z; ms_heap_inuse : Z; ms_heap_released : Z; ms_heap_objects : Z;
  ms_stack_inuse : Z; ms_stack_sys : Z; ms_mspan_inuse : Z; ms_mspan_sys : Z; ms_mcache_inuse : Z; ms_mcache_sys : Z;
  ms_buckhash_sys : Z; ms_gc_sys : Z; ms_other_sys : Z; ms_next_gc : Z; ms_last_gc : Z; ms_pause_total : Z;
  ms_num_gc : Z; ms_num_forced : Z; ms_cpu_fraction : fval; ms_enable_gc : bool; ms_debug_gc : bool }.
Definition memstats_gval (m : memstats) : gval :=
  VStruct [num (B "Alloc") (ms_alloc m); num (B "TotalAlloc") (ms_total_alloc m); num (B "Sys") (ms_sys m); num (B "Lookups") (ms_lookups m);
           num (B "Mallocs") (ms_mallocs m); num (B "Frees") (ms_frees m); num (B "HeapAlloc") (ms_heap_alloc m); num (B "HeapSys") (ms_heap_sys m);
           num (B "HeapIdle") (ms_heap_idle m); num (B "HeapInuse") (ms_heap_inuse m); num (B "HeapReleased") (ms_heap_released m);
           num (B "HeapObjects") (ms_heap_objects m); num (B "StackInuse") (ms_stack_inuse m); num (B "StackSys") (ms_stack_sys m);
           num (B "MSpanInuse") (ms_mspan_inuse m); num (B "MSpanSys") (ms_mspan_sys m); num (B "MCacheInuse") (ms_mcache_inuse m);
           num (B "MCacheSys") (ms_mcache_sys m); num (B "BuckHashSys") (ms_buckhash_sys m); num (B "GCSys") (ms_gc_sys m);
           num (B "OtherSys") (ms_other_sys m); num (B "NextGC") (ms_next_gc m); num (B "LastGC") (ms_last_gc m);
           num (B "PauseTotalNs") (ms_pause_total m); plain (B "PauseNs") VOther; plain (B "PauseEnd") VOther;
           num (B "NumGC") (ms_num_gc m); num (B "NumForcedGC") (ms_num_forced m); plain (B "GCCPUFraction") (VNum (ms_cpu_fraction m));
           plain (B "EnableGC") (VBool (ms_enable_gc m)); plain (B "DebugGC") (VBool (ms_debug_gc m)); plain (B "BySize") VOther].
(** runtime.go 36-41; what follows there is in EnvModel (the pauses) and DistModel (their report). *)
Definition runtime_stats (goroutines : Z) (m : memstats) : list (bytes * bytes * fval) * bool :=
  let p := struct_stats (memstats_gval m) in
  ((B "goroutines", B "count", FInt goroutines) :: series (B "runtime_memstats") (fst p), snd p).
