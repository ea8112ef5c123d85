(** Vocabulary for C99: the documented names. *)
From Verif Require Import Base Fval RusageModel.
Local Open Scope Z_scope.

(** getrusage(2), by the names under which its members are reported. *)
Definition rusage_named : list (string * (rusage -> Z)) :=
  [("Utime.Sec", fun r => tv_sec (ru_utime r)); ("Utime.Usec", fun r => tv_usec (ru_utime r));
   ("Stime.Sec", fun r => tv_sec (ru_stime r)); ("Stime.Usec", fun r => tv_usec (ru_stime r));
   ("Maxrss", ru_maxrss); ("Ixrss", ru_ixrss); ("Idrss", ru_idrss); ("Isrss", ru_isrss); ("Minflt", ru_minflt); ("Majflt", ru_majflt);
   ("Nswap", ru_nswap); ("Inblock", ru_inblock); ("Oublock", ru_oublock); ("Msgsnd", ru_msgsnd); ("Msgrcv", ru_msgrcv);
   ("Nsignals", ru_nsignals); ("Nvcsw", ru_nvcsw); ("Nivcsw", ru_nivcsw)]%string.
(** The fields of runtime.MemStats that are no arrays. *)
Definition memstats_named : list (string * (memstats -> fval)) :=
  map (fun p : string * (memstats -> Z) => (fst p, fun m => FInt (snd p m)))
    [("Alloc", ms_alloc); ("TotalAlloc", ms_total_alloc); ("Sys", ms_sys); ("Lookups", ms_lookups); ("Mallocs", ms_mallocs); ("Frees", ms_frees);
     ("HeapAlloc", ms_heap_alloc); ("HeapSys", ms_heap_sys); ("HeapIdle", ms_heap_idle); ("HeapInuse", ms_heap_inuse);
     ("HeapReleased", ms_heap_released); ("HeapObjects", ms_heap_objects); ("StackInuse", ms_stack_inuse); ("StackSys", ms_stack_sys);
     ("MSpanInuse", ms_mspan_inuse); ("MSpanSys", ms_mspan_sys); ("MCacheInuse", ms_mcache_inuse); ("MCacheSys", ms_mcache_sys);
     ("BuckHashSys", ms_buckhash_sys); ("GCSys", ms_gc_sys); ("OtherSys", ms_other_sys); ("NextGC", ms_next_gc); ("LastGC", ms_last_gc);
     ("PauseTotalNs", ms_pause_total); ("NumGC", ms_num_gc); ("NumForcedGC", ms_num_forced)]%string ++
  [("GCCPUFraction", ms_cpu_fraction); ("EnableGC", fun m => FBool (ms_enable_gc m)); ("DebugGC", fun m => FBool (ms_debug_gc m))]%string.
(** The fields of series [name] in a report, which has one value for each. *)
Definition reports_exactly {X} (name : bytes) (named : list (string * (X -> fval))) (x : X) (l : list (bytes * bytes * fval)) : Prop :=
  (forall f v, (name, f, v) ∈ l <-> exists s get, (s, get) ∈ named /\ f = B s /\ v = get x) /\
  (forall f v v', (name, f, v) ∈ l -> (name, f, v') ∈ l -> v = v').
