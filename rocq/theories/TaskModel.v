(** Calls of a Task as a whole: newSpan and its exit function (ctx.go 59-158) on the spans of
    SpanModel and on the statistics of the Funcs (FuncStatsModel) at once, in the order of the
    code: FuncStatsModel and SpanModel each leave out what the other one has. *)
From Verif Require Import Base Conc FuncStatsModel SpanModel.
Local Open Scope Z_scope.

(** The statistics of all Funcs, by number (Func.FuncStats, func.go 25-32), and the spans. *)
Record whole := Whole { w_spans : spans; w_stats : gmap nat fs }.
Definition w_new : whole := Whole sp_new ∅.
Definition stats_of (w : whole) (f : nat) : fs := default fs_new (w_stats w !! f).

(** One call: its Func, the span (SpanModel) and parent.f (ctx.go 101), None without a parent;
    the duration (finish minus start, 123). *)
Record wcall := WCall { wc_func : nat; wc_span : scall; wc_parent : parent; wc_dur : Z }.
(** What end is told (ctx.go 115-123): the error's name and whether the call panicked. *)
Definition w_outcome (c : wcall) : option bytes * bool := fst (observe_exit (sc_unwind (wc_span c)) (sc_errptr (wc_span c))).
Definition w_fcall (c : wcall) : fcall := FCall (wc_parent c) (fst (w_outcome c)) (snd (w_outcome c)) (wc_dur c).
(** A call in progress: how far it is with the span and how far with the statistics. *)
Record wthread := WThr { wt_call : wcall; wt_span : sthread; wt_stat : fthread }.
Definition w_start (c : wcall) : wthread := WThr c (sp_start (wc_span c)) (f_start (w_fcall c)).

(** Which of the two a call deals with next: incrementSpans (ctx.go 98), then f.start (101, 104),
    then the links and the body; f.end (123) comes first in the exit function, after recover. *)
Definition stat_next (t : wthread) : bool :=
  match st_pc (wt_span t), ft_pc (wt_stat t) with
  | A_inc, _ => false
  | A_link, F_running => false
  | A_link, _ => true
  | X_end, F_done _ => false
  | X_end, _ => true
  | _, _ => false
  end.
Definition w_step (i : nat) (w : whole) (t : wthread) : whole * wthread :=
  let f := wc_func (wt_call t) in
  if stat_next t then
    let r := f_step i (stats_of w f) (wt_stat t) in
    (Whole (w_spans w) (<[f := fst r]> (w_stats w)), WThr (wt_call t) (wt_span t) (snd r))
  else
    let r := sp_step i (w_spans w) (wt_span t) in
    (Whole (fst r) (w_stats w), WThr (wt_call t) (snd r) (wt_stat t)).
Definition w_exec (sched : list (action wcall)) : config whole wthread := exec w_start w_step w_new sched.
