(** Vocabulary for package environment. *)
From Verif Require Import Base EnvModel.
Open Scope Z_scope.

(** The pause of the last collection in a history. *)
Definition latest (h : list rt_event) : option Z :=
  last (omap (fun e => match e with EvGC p => Some p | EvStats => None end) h).
(** The pauses of all collections. *)
Definition pauses (h : list rt_event) : list Z :=
  omap (fun e => match e with EvGC p => Some p | EvStats => None end) h.
(** What a Stats call at position [i] should find: the last pause before it. *)
Definition seen_at (h : list rt_event) (i : nat) : option Z :=
  match h !! i with Some EvStats => latest (take i h) | _ => None end.

(** Decimal numerals, leading zeros allowed. *)
Definition dec_char (c : ascii) (d : Z) : Prop := 0 <= d < 10 /\ B "0123456789" !! Z.to_nat d = Some c.
Inductive dec_num : bytes -> Z -> Prop :=
| dec_one c d : dec_char c d -> dec_num [c] d
| dec_more s n c d : dec_num s n -> dec_char c d -> dec_num (s ++ [c]) (10 * n + d).
Definition blank (c : ascii) : Prop := c ∈ [" "; "009"; "010"; "011"; "012"; "013"]%char.
(** The text of a field. *)
Inductive field_text : verb -> value -> bytes -> Prop :=
| ft_int s n : dec_num s n -> n < 2 ^ 63 -> field_text Vint (VZ n) s
| ft_neg s n : dec_num s n -> n <= 2 ^ 63 -> field_text Vint (VZ (- n)) ("-"%char :: s)
| ft_uint s n : dec_num s n -> n < 2 ^ 64 -> field_text Vuint (VZ n) s
| ft_string s : s <> [] -> (forall c, c ∈ s -> ~ blank c) -> field_text Vstring (VS s) s
| ft_byte c : ~ blank c -> field_text Vbyte (VC c) [c].
(** A line of fields, separated by single spaces, and what may follow. *)
Definition fields_text (vs : list verb) (xs : list value) (ts : list bytes) : Prop :=
  length xs = length vs /\ length ts = length vs /\
  forall i v x t, vs !! i = Some v -> xs !! i = Some x -> ts !! i = Some t -> field_text v x t.
Definition line_end (rest : bytes) : Prop := match rest with [] => True | c :: _ => blank c end.
(** The number reported for a field. *)
Definition field_number (x : value) : option Z :=
  match x with VZ z => Some z | VS _ => None | VC c => Some (Z.of_N (N_of_ascii c)) end.

(** The fields of /proc/self/stat and statm in the order of proc(5): the manual's name, its
    kind (the scanf formats %d and %ld, %u and %lu, %s, %c) and the name it is reported under. *)
Definition documented_stat : list (bytes * verb * bytes) :=
  [(B "pid", Vint, B "Pid"); (B "comm", Vstring, B "Comm"); (B "state", Vbyte, B "State"); (B "ppid", Vint, B "Ppid");
   (B "pgrp", Vint, B "Pgrp"); (B "session", Vint, B "Session"); (B "tty_nr", Vint, B "TtyNr");
   (B "tpgid", Vint, B "Tpgid"); (B "flags", Vuint, B "Flags"); (B "minflt", Vuint, B "Minflt");
   (B "cminflt", Vuint, B "Cminflt"); (B "majflt", Vuint, B "Majflt"); (B "cmajflt", Vuint, B "Cmajflt");
   (B "utime", Vuint, B "Utime"); (B "stime", Vuint, B "Stime"); (B "cutime", Vint, B "Cutime");
   (B "cstime", Vint, B "Cstime"); (B "priority", Vint, B "Priority"); (B "nice", Vint, B "Nice");
   (B "num_threads", Vint, B "NumThreads"); (B "itrealvalue", Vint, B "Itrealvalue");
   (B "starttime", Vuint, B "Starttime"); (B "vsize", Vuint, B "Vsize"); (B "rss", Vint, B "Rss");
   (B "rsslim", Vuint, B "Rsslim"); (B "startcode", Vuint, B "Startcode"); (B "endcode", Vuint, B "Endcode");
   (B "startstack", Vuint, B "Startstack"); (B "kstkesp", Vuint, B "Kstkesp"); (B "kstkeip", Vuint, B "Kstkeip");
   (B "signal", Vuint, B "Signal"); (B "blocked", Vuint, B "Blocked"); (B "sigignore", Vuint, B "Sigignore");
   (B "sigcatch", Vuint, B "Sigcatch"); (B "wchan", Vuint, B "Wchan"); (B "nswap", Vuint, B "Nswap");
   (B "cnswap", Vuint, B "Cnswap"); (B "exit_signal", Vint, B "ExitSignal"); (B "processor", Vint, B "Processor");
   (B "rt_priority", Vuint, B "RtPriority"); (B "policy", Vuint, B "Policy");
   (B "delayacct_blkio_ticks", Vuint, B "DelayAcctBlkioTicks"); (B "guest_time", Vuint, B "GuestTime");
   (B "cguest_time", Vint, B "CguestTime")].
Definition documented_statm : list (bytes * verb * bytes) :=
  [(B "size", Vint, B "Size"); (B "resident", Vint, B "Resident"); (B "shared", Vint, B "Share");
   (B "text", Vint, B "Text"); (B "lib", Vint, B "Lib"); (B "data", Vint, B "Data"); (B "dt", Vint, B "Dt")].
Definition kinds (doc : list (bytes * verb * bytes)) : list verb := map (fun r => snd (fst r)) doc.
Definition reported_names (doc : list (bytes * verb * bytes)) : list bytes := map snd doc.
