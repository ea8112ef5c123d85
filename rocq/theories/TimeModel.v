(** Clocks: monotime.Now and what is recorded of it for calls and timers. *)
From Verif Require Import Base ClockModel.
Local Open Scope Z_scope.

(** What the machine's clocks show at an instant, in nanoseconds: the time of day, which may be
    set at will; the clock behind Go's monotonic readings; the performance counter of Windows. *)
Record reading := Reading { rd_wall : Z; rd_mono : Z; rd_qpc : Z }.

(** time.Time of Go's standard library (its documentation, "Monotonic Clocks"): a time of day
    and, unless it was stripped, a monotonic reading. *)
Record gotime := GoTime { gt_wall : Z; gt_mono : option Z }.
Definition clamp64 (x : Z) : Z := Z.max (- 2 ^ 63) (Z.min (2 ^ 63 - 1) x).
(** time.Now *)
Definition go_now (r : reading) : gotime := GoTime (rd_wall r) (Some (rd_mono r)).
(** Time.Add: both parts are advanced; a monotonic part that would overflow is stripped. *)
Definition go_add (t : gotime) (d : Z) : gotime :=
  GoTime (gt_wall t + d)
         (match gt_mono t with
          | Some m => if bool_decide (- 2 ^ 63 <= m + d < 2 ^ 63) then Some (m + d) else None
          | None => None
          end).
(** Time.Sub: the difference of the monotonic parts if both have one, else of the times of
    day; it saturates. *)
Definition go_sub (t u : gotime) : Z :=
  match gt_mono t, gt_mono u with
  | Some m, Some n => clamp64 (m - n)
  | _, _ => clamp64 (gt_wall t - gt_wall u)
  end.
(** time.Since *)
Definition go_since (t : gotime) (r : reading) : Z := go_sub (go_now r) t.

(** elapsed: monotime_fallback.go 8, and monotime_windows.go 18-21 (ClockModel) *)
Inductive platform := Other | Windows (freq base : Z).
Definition elapsed (p : platform) (init : gotime) (r : reading) : outcome Z :=
  match p with
  | Other => Ok (go_since init r)
  | Windows freq base => win_elapsed freq base (rd_qpc r)
  end.
(** Now, monotime/monotime.go 7; [init] is initTime, 5 *)
Definition mono_now (p : platform) (init : gotime) (r : reading) : outcome gotime :=
  match elapsed p init r with
  | Ok d => Ok (go_add init d)
  | Panic m => Panic m
  end.

(** The uses of the clock.  A call is a span (newSpan, ctx.go 89 and 117-123) or an observation
    of a FuncStats (Observe, funcstats.go 203-212); the numbers tell calls and timers apart. *)
Inductive tev :=
  | CallStart (i : nat)       (* ctx.go 89, funcstats.go 203: start := monotime.Now() *)
  | CallEnd (i : nat)         (* ctx.go 117 and 123, funcstats.go 207 and 212: finish.Sub(start) *)
  | CallDuration (i : nat)    (* Span.Duration, span.go 64-66, and elapsed in present/json.go 53: time.Since *)
  | TimerStart (i : nat)      (* Timer.Start, timer.go 50-54; environment/process.go 31 *)
  | TimerElapsed (i : nat).   (* RunningTimer.Elapsed and Stop, timer.go 64-79; uptime, process.go 46 *)
(** What becomes visible: Start() of the span; the finish time passed to observers together
    with the duration recorded; a duration. *)
Inductive shown := Began (t : gotime) | Ended (finish : gotime) (d : Z) | Lasted (d : Z) | Nothing.
Record tstate := TState { ts_calls : gmap nat gotime; ts_timers : gmap nat gotime }.

Definition t_step (p : platform) (init : gotime) (s : tstate) (r : reading) (e : tev) : outcome (tstate * shown) :=
  match e with
  | CallStart i =>
      match mono_now p init r with
      | Ok t => Ok (TState (<[i := t]> (ts_calls s)) (ts_timers s), Began t)
      | Panic m => Panic m
      end
  | CallEnd i =>
      match mono_now p init r, ts_calls s !! i with
      | Ok f, Some t => Ok (s, Ended f (go_sub f t))
      | Ok _, None => Ok (s, Nothing)
      | Panic m, _ => Panic m
      end
  | CallDuration i =>
      match ts_calls s !! i with
      | Some t => Ok (s, Lasted (go_since t r))
      | None => Ok (s, Nothing)
      end
  | TimerStart i =>
      match mono_now p init r with
      | Ok t => Ok (TState (ts_calls s) (<[i := t]> (ts_timers s)), Nothing)
      | Panic m => Panic m
      end
  | TimerElapsed i =>
      match ts_timers s !! i with
      | Some t => Ok (s, Lasted (go_since t r))
      | None => Ok (s, Nothing)
      end
  end.
Fixpoint t_from (p : platform) (init : gotime) (s : tstate) (h : list (reading * tev)) : outcome (list shown) :=
  match h with
  | [] => Ok []
  | (r, e) :: h' =>
      match t_step p init s r e with
      | Ok (s', o) => match t_from p init s' h' with Ok os => Ok (o :: os) | Panic m => Panic m end
      | Panic m => Panic m
      end
  end.
(** A history of uses, after the package was initialized when the clocks showed [r0]. *)
Definition time_run (p : platform) (r0 : reading) (h : list (reading * tev)) : outcome (list shown) :=
  t_from p (go_now r0) (TState ∅ ∅) h.
