(** FuncStats and funcSet: funcstats.go, funcset.go, as interleaved atomic steps. *)
From Verif Require Import Base SeriesModel Fval ScopeModel Conc.
Local Open Scope Z_scope.

(** A parent Func: its identity, or None for a nil parent (stored as nilFunc, funcset.go
    38 and 42-44; Iterate turns it back into nil, 75-76). *)
Definition parent := option nat.

(** Completed lock sections, a ghost history: the end of call [i] (its err's error name if
    err is not nil, whether it panicked, its duration) and Reset. *)
Inductive event :=
| EvEnd (i : nat) (err : option bytes) (panicked : bool) (dur : Z)
| EvReset.

(** FuncStats, funcstats.go 34-46, with funcSet, funcset.go 26-33.  [fs_first] is the
    atomically accessed pointer (None = nil pointer, empty).  A nil and an empty [rest]
    map are the same.  A DurationDist is represented by the values inserted since its
    last Reset (its fields as functions of them: DistModel.v).  int64 counters do not
    wrap: there are fewer than 2^63 calls. *)
Record fs := FS {
  fs_first : option parent;
  fs_rest : gset parent;
  fs_current : Z;
  fs_highwater : Z;
  fs_errors : gmap bytes Z;
  fs_panics : Z;
  fs_success : list Z;
  fs_failure : list Z;
  fs_log : list event
}.
Definition fs_new : fs := FS None ∅ 0 0 ∅ 0 [] [] [].

Definition set_first s v := FS v (fs_rest s) (fs_current s) (fs_highwater s) (fs_errors s) (fs_panics s) (fs_success s) (fs_failure s) (fs_log s).
Definition set_rest s v := FS (fs_first s) v (fs_current s) (fs_highwater s) (fs_errors s) (fs_panics s) (fs_success s) (fs_failure s) (fs_log s).
Definition set_current s v := FS (fs_first s) (fs_rest s) v (fs_highwater s) (fs_errors s) (fs_panics s) (fs_success s) (fs_failure s) (fs_log s).
Definition set_highwater s v := FS (fs_first s) (fs_rest s) (fs_current s) v (fs_errors s) (fs_panics s) (fs_success s) (fs_failure s) (fs_log s).

(** The locked part of end, funcstats.go 90-105. *)
Definition end_section (i : nat) (err : option bytes) (panicked : bool) (dur : Z) (s : fs) : fs :=
  let log := fs_log s ++ [EvEnd i err panicked dur] in
  if panicked then
    FS (fs_first s) (fs_rest s) (fs_current s) (fs_highwater s) (fs_errors s)
       (fs_panics s + 1) (fs_success s) (fs_failure s ++ [dur]) log
  else match err with
  | None =>
      FS (fs_first s) (fs_rest s) (fs_current s) (fs_highwater s) (fs_errors s)
         (fs_panics s) (fs_success s ++ [dur]) (fs_failure s) log
  | Some e =>
      FS (fs_first s) (fs_rest s) (fs_current s) (fs_highwater s)
         (<[e := default 0 (fs_errors s !! e) + 1]> (fs_errors s))
         (fs_panics s) (fs_success s) (fs_failure s ++ [dur]) log
  end.

(** The locked part of Reset, funcstats.go 68-73. *)
Definition reset_section (s : fs) : fs :=
  FS (fs_first s) (fs_rest s) (fs_current s) (fs_highwater s) ∅ 0 [] [] (fs_log s ++ [EvReset]).

(** What Stats reads (funcstats.go 148-160), and Errors, Success, Panics,
    SuccessTimes, FailureTimes (117-143, 178-191). *)
Record snapshot := Snap {
  sn_current : Z; sn_highwater : Z; sn_panics : Z; sn_errors : gmap bytes Z;
  sn_success : list Z; sn_failure : list Z
}.

(** Calls: one observed function call (start(parent) ... end(err, panicked, dur)), Reset,
    Parents (with the order in which ranging over the set of unique Funcs yields them)
    and Stats. *)
Inductive fcall :=
| FCall (p : parent) (err : option bytes) (panicked : bool) (dur : Z)
| FReset
| FParents (ord : list parent -> list parent)
| FStats.

Inductive fresult := FRNone | FRParents (l : list parent) | FRStats (sn : snapshot).

Inductive fpc :=
| F_load | F_cas | F_lock          (* funcSet.Add *)
| F_inc | F_hwload (c : Z) | F_hwcas (c h : Z)   (* start *)
| F_running
| F_endlock                        (* end after the decrement *)
| F_reset1 | F_reset2 | F_reset3
| F_iter1 | F_iter2 (rest : gset parent)
| F_stats1 | F_stats2 (c : Z) | F_stats3 (c h : Z)
| F_done (r : fresult).
Record fthread := FThr { ft_call : fcall; ft_pc : fpc }.

Definition f_start (c : fcall) : fthread :=
  FThr c (match c with
          | FCall _ _ _ _ => F_load
          | FReset => F_reset1
          | FParents _ => F_iter1
          | FStats => F_stats1
          end).

(** One atomic step.  funcSet.Add: 45-47, 48-50, 51-56.  start: 78, 80 (with the
    comparison of 81), 82.  end: 89, 90-105.  Reset: 66, 67, 68-73.  Iterate: 61-66,
    67-70 (the calls of the callback are local).  Stats: 149, 150, 152-160. *)
Definition f_step (i : nat) (s : fs) (t : fthread) : fs * fthread :=
  let go pc := FThr (ft_call t) pc in
  match ft_call t, ft_pc t with
  | FCall p _ _ _, F_load =>
      if bool_decide (fs_first s = Some p) then (s, go F_inc) else (s, go F_cas)
  | FCall p _ _ _, F_cas =>
      match fs_first s with
      | None => (set_first s (Some p), go F_inc)
      | Some _ => (s, go F_lock)
      end
  | FCall p _ _ _, F_lock => (set_rest s ({[p]} ∪ fs_rest s), go F_inc)
  | FCall _ _ _ _, F_inc => (set_current s (fs_current s + 1), go (F_hwload (fs_current s + 1)))
  | FCall _ _ _ _, F_hwload c =>
      if c <=? fs_highwater s then (s, go F_running) else (s, go (F_hwcas c (fs_highwater s)))
  | FCall _ _ _ _, F_hwcas c h =>
      if fs_highwater s =? h then (set_highwater s c, go F_running) else (s, go (F_hwload c))
  | FCall _ _ _ _, F_running => (set_current s (fs_current s - 1), go F_endlock)
  | FCall _ err panicked dur, F_endlock => (end_section i err panicked dur s, go (F_done FRNone))
  | FReset, F_reset1 => (set_current s 0, go F_reset2)
  | FReset, F_reset2 => (set_highwater s 0, go F_reset3)
  | FReset, F_reset3 => (reset_section s, go (F_done FRNone))
  | FParents _, F_iter1 => (s, go (F_iter2 (fs_rest s)))
  | FParents ord, F_iter2 rest =>
      let uniq := match fs_first s with Some f => {[f]} ∪ rest | None => rest end in
      (s, go (F_done (FRParents (ord (elements uniq)))))
  | FStats, F_stats1 => (s, go (F_stats2 (fs_current s)))
  | FStats, F_stats2 c => (s, go (F_stats3 c (fs_highwater s)))
  | FStats, F_stats3 c h =>
      (s, go (F_done (FRStats (Snap c h (fs_panics s) (fs_errors s) (fs_success s) (fs_failure s)))))
  | _, _ => (s, t)
  end.

Definition f_exec (sched : list (action fcall)) : config fs fthread := exec f_start f_step fs_new sched.

(** What Stats passes to its callback, funcstats.go 149-175.  [errs] is the copied error
    map in iteration order; [dist_stats key values] is what a DurationDist with that key
    and these recorded values emits. *)
Definition fs_stats (key : series_key) (dist_stats : series_key -> list Z -> list (stat fval))
    (sn : snapshot) (errs : list (bytes * Z)) : list (stat fval) :=
  let st k f v := Stat k f (FInt v) in
  let successes := Z.of_nat (length (sn_success sn)) in
  let e_count := fold_left (fun acc e => acc + snd e) errs 0 in
  [st key (B "current") (sn_current sn); st key (B "highwater") (sn_highwater sn); st key (B "successes") successes]
  ++ map (fun e => st (error_key key (fst e)) (B "count") (snd e)) errs
  ++ [st key (B "errors") e_count; st key (B "panics") (sn_panics sn); st key (B "failures") (e_count + sn_panics sn);
      st key (B "total") (successes + e_count + sn_panics sn)]
  ++ dist_stats (success_key key) (sn_success sn)
  ++ dist_stats (failure_key key) (sn_failure sn).

(** How the observed function's body ended: it returned, it is panicking with an interface
    value (None = nil, i.e. panic(nil), possible up to language version go1.20), or
    runtime.Goexit is running its deferred functions. *)
Inductive unwinding (P : Type) :=
| UReturn
| UPanic (v : option P)
| UGoexit.
Arguments UReturn {P}.
Arguments UPanic {P} v.
Arguments UGoexit {P}.

(** The built-in recover() in a deferred function: its result and what happens afterwards. *)
Definition recover {P} (u : unwinding P) : option P * unwinding P :=
  match u with
  | UReturn => (None, UReturn)
  | UPanic v => (v, UReturn)
  | UGoexit => (None, UGoexit)
  end.

(** The function Observe returns, deferred: funcstats.go 204-216 (and likewise ctx.go
    115-157 without the span bookkeeping).  [errptr] is its argument (None = nil pointer,
    Some None = pointer to a nil error).  Result: err and panicked as passed to end, and
    how the unwinding goes on. *)
Definition observe_exit {P} (u : unwinding P) (errptr : option (option bytes))
  : (option bytes * bool) * unwinding P :=
  let r := recover u in
  let panicked := match fst r with Some _ => true | None => false end in
  let err := match errptr with Some e => e | None => None end in
  ((err, panicked), if panicked then UPanic (fst r) else snd r).

(** The exit functions of nested calls, innermost first. *)
Fixpoint observe_nested {P} (u : unwinding P) (levels : list (option (option bytes)))
  : list (option bytes * bool) * unwinding P :=
  match levels with
  | [] => ([], u)
  | e :: levels' =>
      let r := observe_exit u e in
      let r' := observe_nested (snd r) levels' in
      (fst r :: fst r', snd r')
  end.
