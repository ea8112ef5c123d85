(** Span observers of a trace (trace.go 56-109, ctx.go 332-355) and trace watchers of a
    registry (registry.go 99-150), as interleaved atomic steps. *)
From Verif Require Import Base Conc.
Local Open Scope Z_scope.

(** ** The observer list *)

(** A spanObserverTuple is a node, numbered by the ObserveSpans call that made it, which
    also stands for its car; [ob_cdr] holds the cdr of every node pushed so far.  The
    allocator gives every node its own address, so numbers are as good as pointers.
    [ob_mtx] is the thread holding Trace.mtx.  History, for stating properties: the nodes
    pushed, in order, and those unlinked. *)
Record obs := Obs {
  ob_head : option nat;
  ob_cdr : gmap nat (option nat);
  ob_mtx : option nat;
  ob_pushed : list nat;
  ob_unlinked : gset nat
}.
Definition ob_new : obs := Obs None ∅ None [] ∅.
Definition cdr_of (s : obs) (n : nat) : option nat := match ob_cdr s !! n with Some c => c | None => None end.

(** Calls: ObserveSpans(Ctx); the cancel function of the ObserveSpans call of thread r; one
    notification pass (getObserver and the Start or Finish of what it answers). *)
Inductive ocall := OReg | OCancel (r : nat) | ONotify.

Inductive opc :=
| R_load                                  (* trace.go 77 *)
| R_cas (existing : option nat)           (* 78-79 *)
| R_done
| C_start                                 (* the cancel function exists once ObserveSpans returned *)
| C_lock                                  (* 86 *)
| C_walk (parent : option nat)            (* removeObserverFrom: load *parent, 97; None is &t.spanObservers, Some n is &n.cdr *)
| C_load (parent : option nat)            (* existing == ref: load its cdr, 105 *)
| C_cas (parent nxt : option nat)         (* 104-105 *)
| C_unlock                                (* 87 *)
| C_done
| N_start                                 (* getObserver: load the head, 57 *)
| N_check (n : nat)                       (* load its cdr, 61 *)
| N_single (n : nat)                      (* only the car is called *)
| N_call (n : nat) (acc : list nat)       (* l.car.Start / Finish, ctx.go 340, 350 *)
| N_next (n : nat) (acc : list nat)       (* load l.cdr, 341, 351 *)
| N_done (acc : list nat).
Record othread := OThr { ot_call : ocall; ot_pc : opc }.

Definition ob_start (c : ocall) : othread :=
  OThr c (match c with OReg => R_load | OCancel _ => C_start | ONotify => N_start end).

Definition load_ptr (s : obs) (parent : option nat) : option nat :=
  match parent with None => ob_head s | Some n => cdr_of s n end.
Definition store_ptr (s : obs) (parent v : option nat) (unlinked : gset nat) : obs :=
  match parent with
  | None => Obs v (ob_cdr s) (ob_mtx s) (ob_pushed s) unlinked
  | Some n => Obs (ob_head s) (<[n := v]> (ob_cdr s)) (ob_mtx s) (ob_pushed s) unlinked
  end.
Definition set_mtx (s : obs) (m : option nat) : obs := Obs (ob_head s) (ob_cdr s) m (ob_pushed s) (ob_unlinked s).

(** One atomic step of thread [i]; [acc] are the observers called so far, in order. *)
Definition ob_step (i : nat) (s : obs) (t : othread) : obs * othread :=
  let go pc := OThr (ot_call t) pc in
  match ot_call t with
  | OReg =>
      match ot_pc t with
      | R_load => (s, go (R_cas (ob_head s)))
      | R_cas existing =>
          if bool_decide (ob_head s = existing)
          then (Obs (Some i) (<[i := existing]> (ob_cdr s)) (ob_mtx s) (ob_pushed s ++ [i]) (ob_unlinked s), go R_done)
          else (s, go R_load)
      | _ => (s, t)
      end
  | OCancel r =>
      match ot_pc t with
      | C_start => if bool_decide (r ∈ ob_pushed s) then (s, go C_lock) else (s, t)
      | C_lock => match ob_mtx s with None => (set_mtx s (Some i), go (C_walk None)) | Some _ => (s, t) end
      | C_walk parent =>
          match load_ptr s parent with
          | None => (s, go C_unlock)
          | Some existing => if Nat.eqb existing r then (s, go (C_load parent)) else (s, go (C_walk (Some existing)))
          end
      | C_load parent => (s, go (C_cas parent (cdr_of s r)))
      | C_cas parent nxt =>
          if bool_decide (load_ptr s parent = Some r)
          then (store_ptr s parent nxt ({[r]} ∪ ob_unlinked s), go C_unlock)
          else (s, go (C_walk None))
      | C_unlock => (set_mtx s None, go C_done)
      | _ => (s, t)
      end
  | ONotify =>
      match ot_pc t with
      | N_start => match ob_head s with None => (s, go (N_done [])) | Some n => (s, go (N_check n)) end
      | N_check n => match cdr_of s n with None => (s, go (N_single n)) | Some _ => (s, go (N_call n [])) end
      | N_single n => (s, go (N_done [n]))
      | N_call n acc => (s, go (N_next n (acc ++ [n])))
      | N_next n acc => match cdr_of s n with None => (s, go (N_done acc)) | Some m => (s, go (N_call m acc)) end
      | _ => (s, t)
      end
  end.

Definition ob_exec (sched : list (action ocall)) : config obs othread := exec ob_start ob_step ob_new sched.

(** ** Trace watchers *)

(** registryInternal's watcherCounter, traceWatchers and traceWatcher (registry.go 29-33):
    callbacks are numbered by the ObserveTraces call that registered them; the traceWatcher
    pointer is the list of callbacks its closure calls, in order; [wt_ids] are the cbId
    variables captured by the cancel functions.  The counter does not wrap. *)
Record watch := Watch {
  wt_counter : Z;
  wt_table : gmap Z nat;
  wt_current : list nat;
  wt_ids : gmap nat Z
}.
Definition wt_new : watch := Watch 0 ∅ [] ∅.

(** updateWatcher, 106-126; [ord] is the order of ranging over the table. *)
Definition update_watcher (ord : list nat -> list nat) (s : watch) : watch :=
  Watch (wt_counter s) (wt_table s) (ord (map snd (map_to_list (wt_table s)))) (wt_ids s).

(** Calls: ObserveTraces; the cancel function of thread r's ObserveTraces; observeTrace for
    a new trace. *)
Inductive wcall :=
| WReg (ord : list nat -> list nat)
| WCancel (r : nat) (ord : list nat -> list nat)
| WTrace.
Inductive wpc :=
| W_start
| W_call (todo acc : list nat)     (* the loaded watcher is running *)
| W_done (acc : list nat).
Record wthread := WThr { wh_call : wcall; wh_pc : wpc }.
Definition wt_start (c : wcall) : wthread := WThr c W_start.

(** One step of thread [i].  ObserveTraces and cancel work under watcherMtx and publish with
    one atomic store, so each is one step. *)
Definition wt_step (i : nat) (s : watch) (t : wthread) : watch * wthread :=
  let go pc := WThr (wh_call t) pc in
  match wh_pc t with
  | W_start =>
      match wh_call t with
      | WReg ord =>      (* 132-143 *)
          let cb_id := wt_counter s in
          (update_watcher ord (Watch (cb_id + 1) (<[cb_id := i]> (wt_table s)) (wt_current s) (<[i := cb_id]> (wt_ids s))),
           go (W_done []))
      | WCancel r ord => (* 145-150 *)
          match wt_ids s !! r with
          | None => (s, t)
          | Some cb_id =>
              (update_watcher ord (Watch (wt_counter s) (delete cb_id (wt_table s)) (wt_current s) (wt_ids s)), go (W_done []))
          end
      | WTrace => (s, go (W_call (wt_current s) []))   (* 99-104, 119-123 *)
      end
  | W_call [] acc => (s, go (W_done acc))
  | W_call (cb :: todo) acc => (s, go (W_call todo (acc ++ [cb])))
  | W_done _ => (s, t)
  end.
Definition wt_exec (sched : list (action wcall)) : config watch wthread := exec wt_start wt_step wt_new sched.
