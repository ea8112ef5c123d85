(** Vocabulary for C98. *)
From Verif Require Import Base SpecBase ScopeSpec Conc FuncStatsModel FuncStatsSpec SpanModel SpanSpec TaskModel.
Local Open Scope Z_scope.

(** Call number [i], which is also the number of its span. *)
Definition call_at (sched : list (action wcall)) (i : nat) (c : wcall) : Prop := exists t, threads (w_exec sched) !! i = Some t /\ wt_call t = c.
(** A span's parent was created before it and belongs to the Func that its call names as parent;
    ranging over children meets each once. *)
Definition lawful (sched : list (action wcall)) : Prop :=
  forall i c, call_at sched i c -> any_order (sc_ord (wc_span c)) /\
    match sc_parent (wc_span c) with
    | Some p => (p < i)%nat /\ exists c', call_at sched p c' /\ wc_parent c = Some (wc_func c')
    | None => wc_parent c = None
    end.
(** The call's Task has returned, its exit function was not called / has returned. *)
Definition body_runs (t : wthread) : bool := match st_pc (wt_span t) with A_running => true | _ => false end.
Definition is_over (t : wthread) : bool := match st_pc (wt_span t) with X_done _ => true | _ => false end.
(** No call is just starting or ending. *)
Definition calm (sched : list (action wcall)) : Prop := forall i t, threads (w_exec sched) !! i = Some t -> body_runs t = true \/ is_over t = true.
(** The calls of Func [f] among these. *)
Definition calls_of (f : nat) (sched : list (action wcall)) : list wthread := List.filter (fun t => Nat.eqb (wc_func (wt_call t)) f) (threads (w_exec sched)).
Definition how_many (P : wthread -> bool) (l : list wthread) : Z := Z.of_nat (length (List.filter P l)).
(** How a call ended: it panicked, or else the error that the pointer given to the exit function
    pointed to.  A panic with nil counts as none. *)
Definition outcome (t : wthread) : class :=
  match sc_unwind (wc_span (wt_call t)), sc_errptr (wc_span (wt_call t)) with
  | UPanic (Some _), _ => CPanic
  | _, Some (Some e) => CError e
  | _, _ => CSuccess
  end.
Definition ended_with (c : class) (t : wthread) : bool := is_over t && bool_decide (outcome t = c).
Definition stats_after (sched : list (action wcall)) (f : nat) : fs := stats_of (shared (w_exec sched)) f.
(** The Func of span number [i]. *)
Definition func_at (sched : list (action wcall)) (i : nat) : option nat := (fun t => wc_func (wt_call t)) <$> threads (w_exec sched) !! i.
(** What Parents hands to its callback if nothing else happens meanwhile. *)
Definition parents_now (ord : list parent -> list parent) (s : fs) : list parent :=
  match snd (f_step 0 s (snd (f_step 0 s (f_start (FParents ord))))) with FThr _ (F_done (FRParents l)) => l | _ => [] end.
(** The spans and the statistics of Func [f] as models of their own: [ss] and [sf] are schedules of
    SpanModel and FuncStatsModel after which they are as here.  The calls of other Funcs are in the
    latter as reports that never begin. *)
Definition as_spans (sched : list (action wcall)) (ss : list (action scall)) : Prop :=
  sp_exec ss = Cfg (w_spans (shared (w_exec sched))) (map wt_span (threads (w_exec sched))).
Definition its_part (f : nat) (t : wthread) : fthread := if Nat.eqb (wc_func (wt_call t)) f then wt_stat t else f_start FStats.
Definition as_stats (f : nat) (sched : list (action wcall)) (sf : list (action fcall)) : Prop :=
  f_exec sf = Cfg (stats_after sched f) (map (its_part f) (threads (w_exec sched))) /\ no_reset sf /\
  (forall pre, pre `prefix_of` sf -> exists w, w `prefix_of` sched /\ state_after pre = stats_after w f) /\
  (forall w, w `prefix_of` sched -> exists pre, pre `prefix_of` sf /\ state_after pre = stats_after w f).
