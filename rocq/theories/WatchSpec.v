(** Vocabulary for C70-C72. *)
From Verif Require Import Base Conc CollectModel CollectSpec WatchModel.
Local Open Scope Z_scope.

Section watch.
  Context (info : nat -> sinfo) (fuel : nat).
  (** WatchForSpans has returned [r]; the calls made on its collector so far. *)
  Definition w_calls (acts : list wact) : list (action kcall) := w_hist (w_run info fuel acts).
  Definition w_returned (acts : list wact) (r : wres) : Prop := w_pc (w_run info fuel acts) = W_done r.
  (** It waits in its select. *)
  Definition w_waiting (acts : list wact) : Prop := w_pc (w_run info fuel acts) = W_select.
  Definition w_cancelled (acts : list wact) : Prop := WCtx ∈ acts.
  (** How many steps of its own it gets. *)
  Definition w_steps (acts : list wact) : nat := length (List.filter (fun a => match a with WGo _ => true | _ => false end) acts).
  (** Call [i] on the collector has not been made. *)
  Definition unmade (h : list (action kcall)) (i : nat) : Prop := forall th, ~ cl_thread info fuel h i th.

  Context (root : nat).
  (** CollectSpans with a span in ctx has returned; work is running; the calls made on its
      collector. *)
  Definition x_calls (acts : list xact) : list (action kcall) := x_hist (x_run info fuel root acts).
  Definition x_returned (acts : list xact) (l : option (list fin)) : Prop := x_pc (x_run info fuel root acts) = X_done (Some l).
  Definition x_working (acts : list xact) : Prop := x_pc (x_run info fuel root acts) = X_work.
  (** The task's span is finished by CollectSpans only. *)
  Definition x_own (acts : list xact) : Prop := forall f, XFinish f ∈ acts -> fs_span f <> root.
  (** The whole Finish of [f], a span of the same trace, happened while work ran. *)
  Definition during_work (acts : list xact) (f : fin) : Prop :=
    exists a1 a2 a3 i b, acts = a1 ++ a2 ++ a3 /\ x_working a1 /\ x_working (a1 ++ a2) /\
      si_trace (info (fs_span f)) = si_trace (info root) /\
      (forall t, cl_thread info fuel (x_calls a1) i t -> kt_pc t = F_load) /\
      cl_thread info fuel (x_calls (a1 ++ a2)) i (KThr (KFinish f) (F_done b)).
End watch.

(** FindSpan *)
Definition d_returned (nil_matcher : bool) (acts : list dact) : Prop := d_pc (d_run nil_matcher acts) = D_done.
Definition d_thread (nil_matcher : bool) (acts : list dact) (i : nat) (t : fthread) : Prop := fi_thread (d_hist (d_run nil_matcher acts)) i t.
Definition d_waiting (nil_matcher : bool) (acts : list dact) : Prop := d_pc (d_run nil_matcher acts) = D_select.
Definition d_steps (acts : list dact) : nat := length (List.filter (fun a => match a with DGo => true | _ => false end) acts).
