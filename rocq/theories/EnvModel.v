(** Package environment: environment/env.go, runtime.go, process.go, os.go,
    os_unix.go, proc_linux.go. Rusage and MemStats go through StatSourceFromStruct
    unchanged (StructModel). The Darwin and Windows files are not modelled. *)
From Verif Require Import Base Strings Fval StructModel CallersModel.
Open Scope Z_scope.

(** ** runtime.go 31-53: the garbage collection pauses *)
(** debug.GCStats as ReadGCStats fills it (standard library): the number of
    collections, and the last 256 pauses, most recent first. *)
Record gc_stats := GC { gc_num : Z; gc_pause : list Z }.
Definition gc_none : gc_stats := GC 0 [].
Definition collect (g : gc_stats) (pause : Z) : gc_stats := GC (gc_num g + 1) (take 256 (pause :: gc_pause g)).
(** The closure's variables: lastNumGC and the pauses inserted in durDist, in order. *)
Record rt_state := RT { rt_last : Z; rt_inserted : list Z }.
Definition rt_new : rt_state := RT 0 [].
(** runtime.go 43-50: lastNumGC is compared, and never assigned. *)
Definition rt_stats (s : rt_state) (g : gc_stats) : rt_state :=
  if negb (rt_last s =? gc_num g) && (0 <? Z.of_nat (length (gc_pause g)))
  then match gc_pause g with
       | p :: _ => RT (rt_last s) (rt_inserted s ++ [p])
       | [] => s                       (* not reached: the length is positive *)
       end
  else s.
Inductive rt_event := EvGC (pause : Z) | EvStats.
Definition rt_step (sg : rt_state * gc_stats) (e : rt_event) : rt_state * gc_stats :=
  match e with
  | EvGC p => (fst sg, collect (snd sg) p)
  | EvStats => (rt_stats (fst sg) (snd sg), snd sg)
  end.
Definition rt_run (h : list rt_event) : rt_state * gc_stats := fold_left rt_step h (rt_new, gc_none).

(** ** process.go 34-70 *)
(** processCRC: sync.Once keeps the first result, an error ([None]) included. *)
Definition process_crc (cache : option (option Z)) (read : option Z) : option Z * option (option Z) :=
  match cache with Some r => (r, cache) | None => (read, Some read) end.
(** process.go 40-48: what one Stats call reports; [uptime] in nanoseconds. *)
Definition process_stats (cache : option (option Z)) (read : option Z) (uptime : Z) : list (bytes * fval) * option (option Z) :=
  let '(c, cache') := process_crc cache read in
  ((B "control", FInt 1) :: match c with Some v => [(B "crc", FInt v)] | None => [] end ++ [(B "uptime", FSeconds uptime)], cache').
(** A history of Stats calls: what reading the file would give, and the uptime, at each. *)
Fixpoint process_run (cache : option (option Z)) (h : list (option Z * Z)) : list (list (bytes * fval)) :=
  match h with
  | [] => []
  | (read, uptime) :: h' => let '(out, cache') := process_stats cache read uptime in out :: process_run cache' h'
  end.

(** ** os_unix.go 25-41: fdCount *)
(** Readdirnames(4096): names together with no error, io.EOF or another error. *)
Inductive dir_err := DNone | DEof | DFail.
(** [None]: the answers ran out (the loop has not ended). *)
Fixpoint fd_count (count : Z) (answers : list (list bytes * dir_err)) : option (Z * bool) :=
  match answers with
  | [] => None
  | (names, e) :: answers' =>
      let count := count + Z.of_nat (length names) in
      match e with
      | DNone => fd_count count answers'
      | DEof => Some (count, true)
      | DFail => Some (count, false)
      end
  end.
(** os.go 28-35: [None]: /proc/self/fd could not be opened. *)
Definition os_stats (answers : option (list (list bytes * dir_err))) : list (bytes * fval) :=
  match answers with
  | None => []
  | Some a => match fd_count 0 a with Some (n, true) => [(B "count", FInt n)] | _ => [] end
  end.

(** ** proc_linux.go: fmt.Sscanf (standard library, transcribed for the verbs used here) *)
(** White space; input beyond ASCII, where further runes are spaces, is not modelled. *)
Definition newline : ascii := "010".
Definition is_space (c : ascii) : bool :=
  let n := N_of_ascii c in ((9 <=? n) && (n <=? 13) || (n =? 32))%N.
(** A space in the format: at least one space (not a newline) or the end of input. *)
Fixpoint drop_blanks (s : bytes) : bytes :=
  match s with
  | c :: s' => if is_space c && negb (Ascii.eqb c newline) then drop_blanks s' else s
  | [] => []
  end.
Definition fmt_space (s : bytes) : option bytes :=
  match s with
  | [] => Some []
  | c :: s' => if is_space c && negb (Ascii.eqb c newline) then Some (drop_blanks s') else None
  end.
(** SkipSpace before %d and %s: a newline is an error. *)
Definition skip_space (s : bytes) : option bytes :=
  match drop_blanks s with
  | c :: s' => if Ascii.eqb c newline then None else Some (c :: s')
  | [] => Some []
  end.
Definition digit (c : ascii) : option Z :=
  let n := Z.of_N (N_of_ascii c) in if (48 <=? n) && (n <=? 57) then Some (n - 48) else None.
Fixpoint digits (acc : Z) (s : bytes) : Z * bytes :=
  match s with
  | c :: s' => match digit c with Some d => digits (10 * acc + d) s' | None => (acc, s) end
  | [] => (acc, [])
  end.
Definition unsigned_num (s : bytes) : option (Z * bytes) :=
  match s with
  | c :: _ => match digit c with Some _ => Some (digits 0 s) | None => None end
  | [] => None
  end.
Definition plus : ascii := "+".
Definition minus : ascii := "-".
Fixpoint take_word (s : bytes) : bytes * bytes :=
  match s with
  | c :: s' => if is_space c then ([], s) else let '(w, r) := take_word s' in (c :: w, r)
  | [] => ([], [])
  end.
(** The verbs with the types scanned into: int64, uint64, string and byte. *)
Inductive verb := Vint | Vuint | Vstring | Vbyte.
Inductive value := VZ (z : Z) | VS (s : bytes) | VC (c : ascii).
Definition scan_one (v : verb) (s : bytes) : option (value * bytes) :=
  match v with
  | Vbyte => match s with c :: s' => Some (VC c, s') | [] => None end
  | Vstring =>
      match skip_space s with
      | Some (c :: s') => let '(w, r) := take_word (c :: s') in Some (VS w, r)
      | _ => None
      end
  | Vuint =>
      match skip_space s with
      | Some s => match unsigned_num s with
                  | Some (n, r) => if n <? 2 ^ 64 then Some (VZ n, r) else None
                  | None => None
                  end
      | None => None
      end
  | Vint =>
      match skip_space s with
      | Some s =>
          let '(neg, s) := match s with
                           | c :: s' => if Ascii.eqb c minus then (true, s') else if Ascii.eqb c plus then (false, s') else (false, s)
                           | [] => (false, [])
                           end in
          match unsigned_num s with
          | Some (n, r) => let z := if neg : bool then - n else n in
                           if (- 2 ^ 63 <=? z) && (z <? 2 ^ 63) then Some (VZ z, r) else None
          | None => None
          end
      | None => None
      end
  end.
(** Verbs separated by one space each; [None]: Sscanf returns an error. *)
Fixpoint scan_rest (vs : list verb) (s : bytes) : option (list value) :=
  match vs with
  | [] => Some []
  | v :: vs' =>
      match fmt_space s with
      | Some s => match scan_one v s with
                  | Some (x, r) => match scan_rest vs' r with Some xs => Some (x :: xs) | None => None end
                  | None => None
                  end
      | None => None
      end
  end.
Definition scan (vs : list verb) (s : bytes) : option (list value) :=
  match vs with
  | [] => Some []
  | v :: vs' =>
      match scan_one v s with
      | Some (x, r) => match scan_rest vs' r with Some xs => Some (x :: xs) | None => None end
      | None => None
      end
  end.

(** proc_linux.go 38-83 and 90-100: procSelfStat and its format. *)
Definition stat_fields : list (bytes * verb) :=
  [(B "Pid", Vint); (B "Comm", Vstring); (B "State", Vbyte); (B "Ppid", Vint); (B "Pgrp", Vint); (B "Session", Vint);
   (B "TtyNr", Vint); (B "Tpgid", Vint); (B "Flags", Vuint); (B "Minflt", Vuint); (B "Cminflt", Vuint);
   (B "Majflt", Vuint); (B "Cmajflt", Vuint); (B "Utime", Vuint); (B "Stime", Vuint); (B "Cutime", Vint);
   (B "Cstime", Vint); (B "Priority", Vint); (B "Nice", Vint); (B "NumThreads", Vint); (B "Itrealvalue", Vint);
   (B "Starttime", Vuint); (B "Vsize", Vuint); (B "Rss", Vint); (B "Rsslim", Vuint); (B "Startcode", Vuint);
   (B "Endcode", Vuint); (B "Startstack", Vuint); (B "Kstkesp", Vuint); (B "Kstkeip", Vuint); (B "Signal", Vuint);
   (B "Blocked", Vuint); (B "Sigignore", Vuint); (B "Sigcatch", Vuint); (B "Wchan", Vuint); (B "Nswap", Vuint);
   (B "Cnswap", Vuint); (B "ExitSignal", Vint); (B "Processor", Vint); (B "RtPriority", Vuint); (B "Policy", Vuint);
   (B "DelayAcctBlkioTicks", Vuint); (B "GuestTime", Vuint); (B "CguestTime", Vint)].
(** proc_linux.go 103-111, 118-119 *)
Definition statm_fields : list (bytes * verb) :=
  [(B "Size", Vint); (B "Resident", Vint); (B "Share", Vint); (B "Text", Vint); (B "Lib", Vint); (B "Data", Vint); (B "Dt", Vint)].
(** The struct a successful scan fills: every field exported, without tag. *)
Definition value_gval (x : value) : gval :=
  match x with VZ z => VNum (FInt z) | VS _ => VOther | VC c => VNum (FInt (Z.of_N (N_of_ascii c))) end.
Fixpoint fill (fields : list (bytes * verb)) (xs : list value) : list gfield :=
  match fields, xs with
  | (n, _) :: fields', x :: xs' => (n, true, [], value_gval x) :: fill fields' xs'
  | _, _ => []
  end.
(** proc_linux.go 24-36; [None]: the file could not be read. *)
Definition proc_file_stats (fields : list (bytes * verb)) (data : option bytes) : list (bytes * fval) :=
  match data with
  | None => []
  | Some s => match scan (map snd fields) s with
              | Some xs => fst (struct_stats (VStruct (fill fields xs)))
              | None => []
              end
  end.

(** ** env.go 27-35: Register *)
(** The scope's name: callerPackage of Register itself. *)
Definition register_name : bytes := B "github.com/spacemonkeygo/monkit/v3/environment.Register".
Definition register_scope : bytes := caller_package (Some register_name).
(** [registrations] as the init functions filled it; the scope's chained sources. *)
Definition register {S} (registrations chained : list S) : list S := fold_left (fun acc s => acc ++ [s]) registrations chained.
