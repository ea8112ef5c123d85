(** Package collect, ctx.go: WatchForSpans, CollectSpans, FindSpan.  Each call owns a fresh
    collector (or finder); the state keeps the schedule of the calls made on it so far, so
    that the collector's state is [cl_exec] of that schedule (CollectModel.v). *)
From Verif Require Import Base Conc CollectModel.
Local Open Scope Z_scope.

(** ** WatchForSpans, ctx.go 32-46 *)

(** ctx.Err(), or what Spans returned. *)
Inductive wres := WErr | WSpans (l : option (list fin)).
Inductive wpc :=
| W_select                       (* 40 *)
| W_spans (i : nat)              (* 44: Spans runs, as call [i] on the collector *)
| W_cancel (r : wres)            (* deferred cancel, 38 *)
| W_stop (i : nat) (r : wres)    (* deferred Stop, 35, running as call [i] *)
| W_done (r : wres).
(** [w_ctx]: ctx is done. *)
Record watch := Watch { w_hist : list (action kcall); w_ctx : bool; w_pc : wpc }.
Definition w_new : watch := Watch [] false W_select.

(** What can happen: a span of an observed trace starts (with the matcher's answer) or
    finishes; such a notification performs a step; ctx is cancelled; WatchForSpans performs a
    step, with the choice select makes if both channels are ready (true: the collector's).
    Notifications may come at any time, also after cancel: a trace reads its observers before
    calling them. *)
Inductive wact := WStart (n : nat) (matched : bool) | WFinish (f : fin) | WRun (i : nat) | WCtx | WGo (pick : bool).

Section watch.
  Context (info : nat -> sinfo) (fuel : nat).
  Definition hist_thread (h : list (action kcall)) (i : nat) : option kthread := threads (cl_exec info fuel h) !! i.
  Definition next_thread (h : list (action kcall)) : nat := length (threads (cl_exec info fuel h)).
  (** The done channel can be received from: it is closed. *)
  Definition is_closed (h : list (action kcall)) : bool := 0 <? cl_closes (shared (cl_exec info fuel h)).

  Definition w_act (w : watch) (a : wact) : watch :=
    match a with
    | WStart n m => Watch (w_hist w ++ [Spawn (KStart n m)]) (w_ctx w) (w_pc w)
    | WFinish f => Watch (w_hist w ++ [Spawn (KFinish f)]) (w_ctx w) (w_pc w)
    | WRun i => Watch (w_hist w ++ [Run i]) (w_ctx w) (w_pc w)
    | WCtx => Watch (w_hist w) true (w_pc w)
    | WGo pick =>
        match w_pc w with
        | W_select =>
            if is_closed (w_hist w) && (pick || negb (w_ctx w))
            then Watch (w_hist w ++ [Spawn KSpans]) (w_ctx w) (W_spans (next_thread (w_hist w)))
            else if w_ctx w then Watch (w_hist w) (w_ctx w) (W_cancel WErr) else w
        | W_spans i =>
            match hist_thread (w_hist w) i with
            | Some (KThr KSpans (V_done l)) => Watch (w_hist w) (w_ctx w) (W_cancel (WSpans l))
            | _ => Watch (w_hist w ++ [Run i]) (w_ctx w) (W_spans i)
            end
        | W_cancel r => Watch (w_hist w ++ [Spawn KStop]) (w_ctx w) (W_stop (next_thread (w_hist w)) r)
        | W_stop i r =>
            match hist_thread (w_hist w) i with
            | Some (KThr KStop P_done) => Watch (w_hist w) (w_ctx w) (W_done r)
            | _ => Watch (w_hist w ++ [Run i]) (w_ctx w) (W_stop i r)
            end
        | W_done _ => w
        end
    end.
  Definition w_run (acts : list wact) : watch := fold_left w_act acts w_new.
End watch.

(** ** CollectSpans, ctx.go 52-70 *)

(** The call made with a span in ctx; the span of newF.Task (65) is [root].  Lines 54-58
    (no span: work runs and nil is returned) and the observing of the trace (61), which lasts
    as long as the trace, come before [X_begin]. *)
Inductive xpc :=
| X_begin                                  (* 66 *)
| X_force (i : nat)                        (* ForceStart, running as call [i] *)
| X_work                                   (* 67: work is running *)
| X_finish (i : nat) (panicking : bool)    (* the deferred end of the task, 65: Finish of [root] *)
| X_spans (i : nat)                        (* 69 *)
| X_stop (i : nat) (r : option (option (list fin)))  (* deferred Stop, 60; None: panicking *)
| X_done (r : option (option (list fin))).
Record collecting := Collecting { x_hist : list (action kcall); x_pc : xpc }.
Definition x_new : collecting := Collecting [] X_begin.

(** Spans of the trace start (the collector has no matcher, collect.go 61-63) and finish; work
    returns or panics. *)
Inductive xact := XStart (n : nat) | XFinish (f : fin) | XRun (i : nat) | XReturn | XPanic | XGo.

Section collecting.
  Context (info : nat -> sinfo) (fuel : nat) (root : nat).
  Local Notation hist_thread := (hist_thread info fuel).
  Local Notation next_thread := (next_thread info fuel).

  Definition x_act (x : collecting) (a : xact) : collecting :=
    match a with
    | XStart n => Collecting (x_hist x ++ [Spawn (KStart n false)]) (x_pc x)
    | XFinish f => Collecting (x_hist x ++ [Spawn (KFinish f)]) (x_pc x)
    | XRun i => Collecting (x_hist x ++ [Run i]) (x_pc x)
    | XReturn | XPanic =>
        match x_pc x with
        | X_work =>
            let p := match a with XPanic => true | _ => false end in
            Collecting (x_hist x ++ [Spawn (KFinish (Fin root None p))]) (X_finish (next_thread (x_hist x)) p)
        | _ => x
        end
    | XGo =>
        match x_pc x with
        | X_begin => Collecting (x_hist x ++ [Spawn (KForce root)]) (X_force (next_thread (x_hist x)))
        | X_force i =>
            match hist_thread (x_hist x) i with
            | Some (KThr (KForce _) (M_done _)) => Collecting (x_hist x) X_work
            | _ => Collecting (x_hist x ++ [Run i]) (X_force i)
            end
        | X_work => x
        | X_finish i p =>
            match hist_thread (x_hist x) i with
            | Some (KThr (KFinish _) (F_done _)) =>
                if p then Collecting (x_hist x ++ [Spawn KStop]) (X_stop (next_thread (x_hist x)) None)
                else Collecting (x_hist x ++ [Spawn KSpans]) (X_spans (next_thread (x_hist x)))
            | _ => Collecting (x_hist x ++ [Run i]) (X_finish i p)
            end
        | X_spans i =>
            match hist_thread (x_hist x) i with
            | Some (KThr KSpans (V_done l)) => Collecting (x_hist x ++ [Spawn KStop]) (X_stop (next_thread (x_hist x)) (Some l))
            | _ => Collecting (x_hist x ++ [Run i]) (X_spans i)
            end
        | X_stop i r =>
            match hist_thread (x_hist x) i with
            | Some (KThr KStop P_done) => Collecting (x_hist x) (X_done r)
            | _ => Collecting (x_hist x ++ [Run i]) (X_stop i r)
            end
        | X_done _ => x
        end
    end.
  Definition x_run (acts : list xact) : collecting := fold_left x_act acts x_new.
End collecting.

(** ** FindSpan, ctx.go 75-90 *)
Inductive dpc :=
| D_select               (* 86 *)
| D_cancel               (* deferred cancel, 84 *)
| D_stop (i : nat)       (* deferred Stop, 82 *)
| D_done.
Record finding := Finding { d_hist : list (action fcall); d_ctx : bool; d_pc : dpc }.
(** A nil matcher: it returns at once, 77-79. *)
Definition d_new (nil_matcher : bool) : finding := Finding [] false (if nil_matcher then D_done else D_select).
Inductive dact := DStart (matched : bool) | DRun (i : nat) | DCtx | DGo.
Definition d_act (d : finding) (a : dact) : finding :=
  match a with
  | DStart m => Finding (d_hist d ++ [Spawn (FStart m)]) (d_ctx d) (d_pc d)
  | DRun i => Finding (d_hist d ++ [Run i]) (d_ctx d) (d_pc d)
  | DCtx => Finding (d_hist d) true (d_pc d)
  | DGo =>
      match d_pc d with
      | D_select => if (0 <? fi_closes (shared (fi_exec (d_hist d)))) || d_ctx d then Finding (d_hist d) (d_ctx d) D_cancel else d
      | D_cancel => Finding (d_hist d ++ [Spawn FStop]) (d_ctx d) (D_stop (length (threads (fi_exec (d_hist d)))))
      | D_stop i =>
          match threads (fi_exec (d_hist d)) !! i with
          | Some (FThr FStop Q_done) => Finding (d_hist d) (d_ctx d) D_done
          | _ => Finding (d_hist d ++ [Run i]) (d_ctx d) (D_stop i)
          end
      | D_done => d
      end
  end.
Definition d_run (nil_matcher : bool) (acts : list dact) : finding := fold_left d_act acts (d_new nil_matcher).
