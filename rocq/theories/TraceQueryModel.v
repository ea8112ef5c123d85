(** Package present, trace.go: TraceQuerySVG, TraceQueryJSON and watchForSpansWithKeepalive,
    made of keepAlive (KeepAliveModel.v) and WatchForSpans (WatchModel.v).  The state keeps the
    actions performed on each so far, so that their states are [ka_exec] and [w_run] of them. *)
From Verif Require Import Base PresentModel Conc CollectModel WatchModel KeepAliveModel.
Local Open Scope nat_scope.

(** What a query returns: nil, the error of the context, the error of a Write; or a panic of
    the writer goes through it. *)
Inductive tqres := TNil | TCtx | TWrite (e : error) | TPanic.
(** The calls of w.Write: one begins with these bytes, one ends having taken these. *)
Inductive wev := WBegin (p : bytes) | WEnd (taken : bytes).
Inductive tqpc :=
| T_watch                                 (* 439: WatchForSpans runs *)
| T_stop (r : wres)                       (* 440: stop runs, as call 0 *)
| T_defer (v : option error) (r : wres)   (* the deferred stop, 437, runs as call 1 *)
| T_doc (todo : list bytes)               (* 400, 415: the document is being written; what remains *)
| T_write (p : bytes) (todo : list bytes) (* inside of a Write of it *)
| T_done (r : tqres).
Record tq := TQ { q_ka : list act; q_watch : list wact; q_pc : tqpc; q_log : list wev }.
Definition tq_new : tq := TQ [] [] T_watch [].

(** The ticker fires; the goroutine of keepAlive performs a step ([n]: how much the Write of a
    ping takes if it fails); a notification of a span (the other watch actions are not for the
    scheduler to choose); the query performs a step. *)
Inductive tqact :=
| QTick | QLoop (c : choice) (o : outcome) (n : nat) | QNote (a : wact) | QGo (pick : bool) (o : outcome) (n : nat).

(** The contract of io.Writer: a Write that returns no error took everything. *)
Definition taken (p : bytes) (o : outcome) (n : nat) : bytes :=
  match o with Returns None => p | _ => take n p end.
(** What call [i] of stop returned, if it did. *)
Fixpoint stop_value (i : nat) (l : list event) : option (option error) :=
  match l with
  | [] => None
  | EStopRet j v :: l' => if j =? i then Some v else stop_value i l'
  | _ :: l' => stop_value i l'
  end.

Section query.
  (** [document l]: the successive Writes SpansToSVG or SpansToJSON makes for [l]; both stop at
      the first that fails (text/template's Execute does, json.go 187-206). *)
  Context (info : nat -> sinfo) (fuel : nat) (document : option (list fin) -> list bytes).

  Definition ka (q : tq) : state := ka_exec (q_ka q).
  Definition wa (q : tq) : watch := w_run info fuel (q_watch q).
  Definition in_ping (s : state) : bool := match st_loop s with LPing => true | _ => false end.

  (** A step of keepAlive.  The ping is the Write of trace.go 433-435; keepalive is a newline,
      397 and 412. *)
  Definition ka_do (q : tq) (a : act) (o : outcome) (n : nat) : tq :=
    let k := q_ka q ++ [a] in
    let log :=
      if in_ping (ka q) then match a with LoopStep _ _ => q_log q ++ [WEnd (taken [newline] o n)] | _ => q_log q end
      else if in_ping (ka_exec k) then q_log q ++ [WBegin [newline]] else q_log q in
    (* 432: the context of WatchForSpans is the one keepAlive made *)
    let w := if st_rctx (ka_exec k) && negb (w_ctx (wa q)) then q_watch q ++ [WCtx] else q_watch q in
    TQ k w (q_pc q) log.
  Definition w_do (q : tq) (a : wact) : tq := TQ (q_ka q) (q_watch q ++ [a]) (q_pc q) (q_log q).
  Definition goto (q : tq) (p : tqpc) : tq := TQ (q_ka q) (q_watch q) p (q_log q).
  Definition log_write (q : tq) (e : wev) : tq := TQ (q_ka q) (q_watch q) (q_pc q) (q_log q ++ [e]).
  Definition quiet_outcome : outcome := Returns None.

  (** trace.go 393-401 and 408-416, 428-444.  The context of the caller is context.TODO(), which
      is never cancelled. *)
  Definition q_go (q : tq) (pick : bool) (o : outcome) (n : nat) : tq :=
    match q_pc q with
    | T_watch =>
        match w_pc (wa q) with
        | W_done r => goto (ka_do q StopCall quiet_outcome 0) (T_stop r)
        | _ => w_do q (WGo pick)
        end
    | T_stop r =>
        match stop_value 0 (st_log (ka q)) with
        | Some v => goto (ka_do q StopCall quiet_outcome 0) (T_defer v r)
        | None => ka_do q (StopStep 0) quiet_outcome 0
        end
    | T_defer v r =>
        match stop_value 1 (st_log (ka q)) with
        | Some _ =>
            match v, r with
            | Some e, _ => goto q (T_done (TWrite e))         (* 441; 398, 413 *)
            | None, WErr => goto q (T_done TCtx)              (* 443 *)
            | None, WSpans l => goto q (T_doc (document l))
            end
        | None => ka_do q (StopStep 1) quiet_outcome 0
        end
    | T_doc [] => goto q (T_done TNil)
    | T_doc (p :: todo) => goto (log_write q (WBegin p)) (T_write p todo)
    | T_write p todo =>
        goto (log_write q (WEnd (taken p o n)))
          (match o with Returns None => T_doc todo | Returns (Some e) => T_done (TWrite e) | _ => T_done TPanic end)
    | T_done _ => q
    end.
  Definition q_act (q : tq) (a : tqact) : tq :=
    match a with
    | QTick => ka_do q Tick quiet_outcome 0
    | QLoop c o n => ka_do q (LoopStep c o) o n
    | QNote (WStart m b) => w_do q (WStart m b)
    | QNote (WFinish f) => w_do q (WFinish f)
    | QNote (WRun i) => w_do q (WRun i)
    | QNote _ => q
    | QGo pick o n => q_go q pick o n
    end.
  Definition q_exec (acts : list tqact) : tq := fold_left q_act acts tq_new.
End query.
