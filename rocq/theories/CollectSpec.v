(** Vocabulary for the collect properties. *)
From Verif Require Import Base Conc ScopeSpec CollectModel.
Local Open Scope Z_scope.

(** ** ObserveAllTraces *)
Definition at_thread (sched : list (action acall)) (i : nat) (t : athread) : Prop := threads (at_exec sched) !! i = Some t.
(** The collector is attached to trace [t]: an ObserveSpans on it was made and not cancelled. *)
Definition attached (sched : list (action acall)) (t : nat) : Prop :=
  exists k, k ∈ at_attached (shared (at_exec sched)) /\ at_log (shared (at_exec sched)) !! k = Some t.
(** The traces of all ObserveSpans calls made so far, in order. *)
Definition attachments (sched : list (action acall)) : list nat := at_log (shared (at_exec sched)).
(** The call has registered its trace watcher; has not read the root spans; has returned. *)
Definition setup_registered (sched : list (action acall)) : Prop :=
  exists i ord pc, at_thread sched i (AThr (ASetup ord) pc) /\ pc <> O_register.
Definition setup_unscanned (sched : list (action acall)) (i : nat) : Prop :=
  exists ord pc, at_thread sched i (AThr (ASetup ord) pc) /\ (pc = O_register \/ pc = O_roots).
Definition setup_returned (sched : list (action acall)) (i : nat) : Prop :=
  exists ord, at_thread sched i (AThr (ASetup ord) O_done).
(** A trace has not begun (with observeTrace); its observeTrace has returned. *)
Definition trace_not_begun (sched : list (action acall)) (p : nat) : Prop :=
  forall t, at_thread sched p t -> ah_pc t = T_load.
Definition trace_observed (sched : list (action acall)) (p t : nat) : Prop :=
  exists w, at_thread sched p (AThr (ATrace t) (T_done w)).
(** A cancel was called; returned. *)
Definition cancel_begun (sched : list (action acall)) : Prop :=
  exists c pc, at_thread sched c (AThr ACancel pc) /\ pc <> K_start.
Definition cancel_returned (sched : list (action acall)) : Prop :=
  exists c, at_thread sched c (AThr ACancel K_done).
(** Span [j] of trace [t] is a running root or orphan. *)
Definition root_running (sched : list (action acall)) (j t : nat) : Prop :=
  exists o, at_thread sched j (AThr (ASpan t o) S_running).
(** RootSpans reports every span once. *)
Definition at_orders (sched : list (action acall)) : Prop :=
  forall i ord pc, at_thread sched i (AThr (ASetup ord) pc) -> any_order ord.

(** ** SpanCollector *)
Section collector.
  Context (info : nat -> sinfo) (fuel : nat).
  Definition cl_thread (sched : list (action kcall)) (i : nat) (t : kthread) : Prop := threads (cl_exec info fuel sched) !! i = Some t.

  (** [n] is the triggering span: a Start or ForceStart of it won. *)
  Definition trigger (sched : list (action kcall)) (n : nat) : Prop :=
    exists i, (exists m, cl_thread sched i (KThr (KStart n m) (M_done true))) \/ cl_thread sched i (KThr (KForce n) (M_done true)).
  (** Finish kept [f] as an ordinary collected span. *)
  Definition collected (sched : list (action kcall)) (f : fin) : Prop :=
    exists i e, (cl_thread sched i (KThr (KFinish f) (F_unlock true)) \/ cl_thread sched i (KThr (KFinish f) (F_done true))) /\
              trigger sched e /\ fs_span f <> e.
  (** The outcome of Finish of the triggering span was recorded. *)
  Definition ended (sched : list (action kcall)) (f : fin) : Prop :=
    trigger sched (fs_span f) /\ exists i pc, cl_thread sched i (KThr (KFinish f) pc) /\
      (pc = F_unlock_stop \/ pc = F_swap \/ pc = F_close \/ pc = F_done true).
  (** Finish of [f] has begun; has returned. *)
  Definition finish_begun (sched : list (action kcall)) (f : fin) : Prop :=
    exists i pc, cl_thread sched i (KThr (KFinish f) pc) /\ pc <> F_load.
  Definition finish_returned (sched : list (action kcall)) (f : fin) : Prop :=
    exists i b, cl_thread sched i (KThr (KFinish f) (F_done b)).
  (** Spans answered [l] (None: it did not end within the recursion depth). *)
  Definition spans_answer (sched : list (action kcall)) (i : nat) (l : option (list fin)) : Prop :=
    cl_thread sched i (KThr KSpans (V_done l)).

  (** Every span finishes once, and spans have different ids.  (Nothing is assumed of parent
      ids: remote ones may be any number, even the id of a later span.) *)
  Definition finish_once (sched : list (action kcall)) : Prop :=
    forall i j f g pc pc', cl_thread sched i (KThr (KFinish f) pc) -> cl_thread sched j (KThr (KFinish g) pc') ->
      fs_span f = fs_span g -> i = j.
  Definition distinct_ids : Prop := forall a b, si_id (info a) = si_id (info b) -> a = b.
  (** The recursion depth is no bound for the spans that finish. *)
  Definition deep_enough (sched : list (action kcall)) : Prop :=
    forall i f pc, cl_thread sched i (KThr (KFinish f) pc) -> (fs_span f < fuel)%nat.

  (** Reached from [r] through spans in [P], parent by parent. *)
  Inductive connected (P : fin -> Prop) (r : fin) : fin -> Prop :=
  | conn_root : connected P r r
  | conn_child p f : connected P r p -> P f -> si_parent (info (fs_span f)) = Some (si_id (info (fs_span p))) -> connected P r f.

  (** Neither Stop nor Finish of [n] has been called. *)
  Definition undisturbed (sched : list (action kcall)) (n : nat) : Prop :=
    (forall i pc, cl_thread sched i (KThr KStop pc) -> pc = P_swap) /\
    (forall i f pc, cl_thread sched i (KThr (KFinish f) pc) -> fs_span f = n -> pc = F_load).
  (** The whole Finish of [f], a span of the same trace, happened after [n] triggered and
      before Stop or Finish of [n] was called. *)
  Definition in_period (sched : list (action kcall)) (n : nat) (f : fin) : Prop :=
    exists pre mid post i b, sched = pre ++ mid ++ post /\ trigger pre n /\ undisturbed (pre ++ mid) n /\
      si_trace (info (fs_span f)) = si_trace (info n) /\
      (forall t, cl_thread pre i t -> kt_pc t = F_load) /\
      cl_thread (pre ++ mid) i (KThr (KFinish f) (F_done b)).
  (** Spans has not been called yet (as thread [i]). *)
  Definition spans_unbegun (sched : list (action kcall)) (i : nat) : Prop :=
    forall t, cl_thread sched i t -> kt_pc t = V_lock.
End collector.

(** How often the done channels were closed. *)
Definition closes (info : nat -> sinfo) (fuel : nat) (sched : list (action kcall)) : Z := cl_closes (shared (cl_exec info fuel sched)).

(** ** spanFinder *)
Definition finder_closes (sched : list (action fcall)) : Z := fi_closes (shared (fi_exec sched)).
Definition fi_thread (sched : list (action fcall)) (i : nat) (t : fthread) : Prop := threads (fi_exec sched) !! i = Some t.
