(** present/utils.go: keepAlive and catchPanics. *)
From Verif Require Import Base.
Open Scope Z_scope.

(** Errors are opaque; [fmt_error v] stands for fmt.Errorf with the panic value [v]. *)
Inductive error := Err (n : nat) | FmtErr (v : nat).
(** How a call of the ping function ends. *)
Inductive outcome :=
| Returns (e : option error)
| PanicsErr (e : error)          (* panic with a value that is an error *)
| PanicsVal (v : nat)            (* any other non-nil value *)
| PanicsNil.                     (* panic(nil): go.mod asks for a Go older than 1.21, so recover returns nil *)
(** utils.go 89-102: catchPanics. *)
Definition catch_panics (o : outcome) : option error :=
  match o with
  | Returns e => e
  | PanicsErr e => Some e
  | PanicsVal v => Some (FmtErr v)
  | PanicsNil => None
  end.

(** What can be seen from outside, in order. *)
Inductive event :=
| ETick                               (* the ticker fires *)
| EParent                             (* ctx is cancelled *)
| EStart                              (* ping is called *)
| EEnd (e : option error)             (* ping (with catchPanics) returns *)
| ECancel                             (* keepAlive cancels rctx *)
| EStopCall (i : nat)                 (* the i-th call of stop begins *)
| EStopRet (i : nat) (e : option error).

(** Where the loop goroutine is (utils.go 50-74). *)
Inductive loop :=
| LSelect                             (* line 54 *)
| LTick                               (* line 60, before mu.Lock *)
| LPing                               (* line 65, holding mu *)
| LFailed                             (* line 67, pingErr set, holding mu *)
| LCancel                             (* line 68 *)
| LExit.
(** A call of stop (utils.go 76-86). *)
Inductive stop_call :=
| SNew                                (* line 77 *)
| SClosed                             (* line 82, before mu.Lock *)
| SLocked                             (* line 84, holding mu *)
| SRet.
Inductive holder := HFree | HLoop | HStop (i : nat).
Record state := St {
  st_loop : loop; st_mu : holder; st_done : bool; st_stopped : bool; st_err : option error;
  st_tick : bool;                     (* the ticker's channel has room for one *)
  st_parent : bool;                   (* ctx cancelled *)
  st_rctx : bool;                     (* rctx cancelled *)
  st_stops : list stop_call;
  st_log : list event
}.
Definition ka_init : state := St LSelect HFree false false None false false false [] [].

Inductive choice := ChDone | ChCtx | ChTick.
Inductive act :=
| Tick | ParentCancel
| LoopStep (c : choice) (o : outcome) (* which ready case select takes; how a ping ends *)
| StopCall | StopStep (i : nat).

Definition set_loop (s : state) (l : loop) : state :=
  St l (st_mu s) (st_done s) (st_stopped s) (st_err s) (st_tick s) (st_parent s) (st_rctx s) (st_stops s) (st_log s).
Definition set_mu (s : state) (m : holder) : state :=
  St (st_loop s) m (st_done s) (st_stopped s) (st_err s) (st_tick s) (st_parent s) (st_rctx s) (st_stops s) (st_log s).
Definition set_tick (s : state) (b : bool) : state :=
  St (st_loop s) (st_mu s) (st_done s) (st_stopped s) (st_err s) b (st_parent s) (st_rctx s) (st_stops s) (st_log s).
Definition set_err (s : state) (e : option error) : state :=
  St (st_loop s) (st_mu s) (st_done s) (st_stopped s) e (st_tick s) (st_parent s) (st_rctx s) (st_stops s) (st_log s).
Definition set_done (s : state) : state :=
  St (st_loop s) (st_mu s) true (st_stopped s) (st_err s) (st_tick s) (st_parent s) (st_rctx s) (st_stops s) (st_log s).
Definition set_stopped (s : state) : state :=
  St (st_loop s) (st_mu s) (st_done s) true (st_err s) (st_tick s) (st_parent s) (st_rctx s) (st_stops s) (st_log s).
Definition set_parent (s : state) : state :=
  St (st_loop s) (st_mu s) (st_done s) (st_stopped s) (st_err s) (st_tick s) true (st_rctx s) (st_stops s) (st_log s).
Definition set_rctx (s : state) : state :=
  St (st_loop s) (st_mu s) (st_done s) (st_stopped s) (st_err s) (st_tick s) (st_parent s) true (st_stops s) (st_log s).
Definition set_stops (s : state) (l : list stop_call) : state :=
  St (st_loop s) (st_mu s) (st_done s) (st_stopped s) (st_err s) (st_tick s) (st_parent s) (st_rctx s) l (st_log s).
Definition emit (s : state) (e : event) : state :=
  St (st_loop s) (st_mu s) (st_done s) (st_stopped s) (st_err s) (st_tick s) (st_parent s) (st_rctx s) (st_stops s) (st_log s ++ [e]).

(** utils.go 50-74. *)
Definition loop_step (s : state) (c : choice) (o : outcome) : state :=
  match st_loop s with
  | LSelect =>
      match c with
      | ChDone => if st_done s then set_loop s LExit else s
      | ChCtx => if st_parent s then set_loop s LExit else s
      | ChTick => if st_tick s then set_loop (set_tick s false) LTick else s
      end
  | LTick =>
      match st_mu s with
      | HFree =>
          if st_stopped s || (match st_err s with Some _ => true | None => false end) then set_loop s LExit
          else emit (set_loop (set_mu s HLoop) LPing) EStart
      | _ => s
      end
  | LPing =>
      match catch_panics o with
      | Some e => set_loop (set_err (emit s (EEnd (Some e))) (Some e)) LFailed
      | None => set_loop (set_mu (emit s (EEnd None)) HFree) LSelect
      end
  | LFailed => set_loop (set_mu s HFree) LCancel
  | LCancel => set_loop (set_rctx (emit s ECancel)) LExit
  | LExit => s
  end.
(** utils.go 76-86. *)
Definition stop_step (s : state) (i : nat) : state :=
  match st_stops s !! i with
  | Some SNew => set_stops (set_done s) (<[i := SClosed]> (st_stops s))
  | Some SClosed =>
      match st_mu s with
      | HFree => set_stops (set_mu s (HStop i)) (<[i := SLocked]> (st_stops s))
      | _ => s
      end
  | Some SLocked =>
      set_stops (emit (set_mu (set_stopped s) HFree) (EStopRet i (st_err s))) (<[i := SRet]> (st_stops s))
  | _ => s
  end.
Definition ka_step (s : state) (a : act) : state :=
  match a with
  | Tick => match st_loop s with
            | LExit => s                (* ticker.Stop *)
            | _ => emit (set_tick s true) ETick
            end
  | ParentCancel => if st_parent s then s else emit (set_rctx (set_parent s)) EParent
  | LoopStep c o => loop_step s c o
  | StopCall => emit (set_stops s (st_stops s ++ [SNew])) (EStopCall (length (st_stops s)))
  | StopStep i => stop_step s i
  end.
Definition ka_exec (acts : list act) : state := fold_left ka_step acts ka_init.
