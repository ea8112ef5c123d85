(** Package collect: ObserveAllTraces (trace.go), SpanCollector and spanFinder (collect.go),
    as interleaved atomic steps. *)
From Verif Require Import Base Conc.
Local Open Scope Z_scope.

(** ** ObserveAllTraces, collect/trace.go 25-62 *)

(** The variables of one call's closures (mtx, cancelers, stopping, existingTraces, 26-29),
    whether the registry's trace watcher includes its callback (ObserverModel.v: C26), the
    registry's running root and orphaned spans (span to trace; SpanModel.v), the collector's
    attachments: [at_log] has the trace of each ObserveSpans made, in order, [at_attached]
    the numbers of those not cancelled (C25).  [at_returned] says the call has returned, so
    that its cancel function exists. *)
Record allt := AllT {
  at_watch : bool;
  at_mtx : option nat;
  at_stopping : bool;
  at_existing : gset nat;
  at_cancelers : list nat;
  at_log : list nat;
  at_attached : gset nat;
  at_roots : gmap nat nat;
  at_orphans : gmap nat nat;
  at_begun : bool;
  at_returned : bool
}.
Definition at_new : allt := AllT false None false ∅ [] [] ∅ ∅ ∅ false false.

(** Calls: ObserveAllTraces (one; more of them do not step), with the order in which
    RootSpans reports; observeTrace for a trace (repeatedly for the same one by RemoteTrace);
    its cancel function; a span of a trace that is a root, or orphaned, while it runs. *)
Inductive acall :=
| ASetup (ord : list nat -> list nat)
| ATrace (t : nat)
| ACancel
| ASpan (t : nat) (orphan : bool).

(** The callback's body on a trace, 32-38 and 43-50. *)
Inductive bpc :=
| B_lock                   (* mtx.Lock *)
| B_check                  (* existingTraces[t] || stopping *)
| B_mark                   (* existingTraces[t] = true *)
| B_attach                 (* t.ObserveSpans(collector) *)
| B_append (k : nat)       (* cancelers = append(...) *)
| B_unlock.                (* deferred mtx.Unlock *)
Inductive apc :=
| O_register               (* r.ObserveTraces, 31 *)
| O_roots                  (* RootSpans: copy the roots, registry.go 179-184 *)
| O_orphans (rs : list nat)(* copy the orphans, 185-190 *)
| O_next (todo : list nat) (* callbacks, 193-195; traces left *)
| O_in (b : bpc) (t : nat) (todo : list nat)
| O_done
| T_load                   (* observeTrace: load the watcher, registry.go 100 *)
| T_in (b : bpc)
| T_done (watched : bool)
| K_start
| K_main                   (* mainCanceler(), 54 *)
| K_lock                   (* 55 *)
| K_stop                   (* stopping = true, 57 *)
| K_range                  (* range cancelers, 58 *)
| K_cancel (todo : list nat) (* canceler(), 59 *)
| K_unlock
| K_done
| S_join
| S_running
| S_done.
Record athread := AThr { ah_call : acall; ah_pc : apc }.
Definition at_start (c : acall) : athread :=
  AThr c (match c with ASetup _ => O_register | ATrace _ => T_load | ACancel => K_start | ASpan _ _ => S_join end).

Definition at_set_mtx (s : allt) (m : option nat) : allt :=
  AllT (at_watch s) m (at_stopping s) (at_existing s) (at_cancelers s) (at_log s) (at_attached s) (at_roots s) (at_orphans s) (at_begun s) (at_returned s).
Definition at_set_watch (s : allt) (w : bool) (b r : bool) : allt :=
  AllT w (at_mtx s) (at_stopping s) (at_existing s) (at_cancelers s) (at_log s) (at_attached s) (at_roots s) (at_orphans s) b r.
Definition at_set_spans (s : allt) (r o : gmap nat nat) : allt :=
  AllT (at_watch s) (at_mtx s) (at_stopping s) (at_existing s) (at_cancelers s) (at_log s) (at_attached s) r o (at_begun s) (at_returned s).

(** One step of the body for thread [i] on trace [t]; [None] when it has returned. *)
Definition body_step (i t : nat) (s : allt) (b : bpc) : allt * option bpc :=
  match b with
  | B_lock => match at_mtx s with None => (at_set_mtx s (Some i), Some B_check) | Some _ => (s, Some B_lock) end
  | B_check => if bool_decide (t ∈ at_existing s) || at_stopping s then (s, Some B_unlock) else (s, Some B_mark)
  | B_mark =>
      (AllT (at_watch s) (at_mtx s) (at_stopping s) ({[t]} ∪ at_existing s) (at_cancelers s) (at_log s) (at_attached s)
            (at_roots s) (at_orphans s) (at_begun s) (at_returned s), Some B_attach)
  | B_attach =>
      (AllT (at_watch s) (at_mtx s) (at_stopping s) (at_existing s) (at_cancelers s) (at_log s ++ [t])
            ({[length (at_log s)]} ∪ at_attached s) (at_roots s) (at_orphans s) (at_begun s) (at_returned s), Some (B_append (length (at_log s))))
  | B_append k =>
      (AllT (at_watch s) (at_mtx s) (at_stopping s) (at_existing s) (at_cancelers s ++ [k]) (at_log s) (at_attached s)
            (at_roots s) (at_orphans s) (at_begun s) (at_returned s), Some B_unlock)
  | B_unlock => (at_set_mtx s None, None)
  end.

(** The traces of a map of spans. *)
Definition traces_of (m : gmap nat nat) : list nat := map snd (map_to_list m).

Definition at_step (i : nat) (s : allt) (th : athread) : allt * athread :=
  let go pc := AThr (ah_call th) pc in
  match ah_call th with
  | ASetup ord =>
      match ah_pc th with
      | O_register => if at_begun s then (s, th) else (at_set_watch s true true (at_returned s), go O_roots)
      | O_roots => (s, go (O_orphans (traces_of (at_roots s))))
      | O_orphans rs => (s, go (O_next (ord (rs ++ traces_of (at_orphans s)))))
      | O_next [] => (at_set_watch s (at_watch s) (at_begun s) true, go O_done)
      | O_next (t :: todo) => (s, go (O_in B_lock t todo))
      | O_in b t todo =>
          let r := body_step i t s b in
          (fst r, go (match snd r with Some b' => O_in b' t todo | None => O_next todo end))
      | _ => (s, th)
      end
  | ATrace t =>
      match ah_pc th with
      | T_load => if at_watch s then (s, go (T_in B_lock)) else (s, go (T_done false))
      | T_in b =>
          let r := body_step i t s b in
          (fst r, go (match snd r with Some b' => T_in b' | None => T_done true end))
      | _ => (s, th)
      end
  | ACancel =>
      match ah_pc th with
      | K_start => if at_returned s then (s, go K_main) else (s, th)
      | K_main => (at_set_watch s false (at_begun s) (at_returned s), go K_lock)
      | K_lock => match at_mtx s with None => (at_set_mtx s (Some i), go K_stop) | Some _ => (s, th) end
      | K_stop =>
          (AllT (at_watch s) (at_mtx s) true (at_existing s) (at_cancelers s) (at_log s) (at_attached s)
                (at_roots s) (at_orphans s) (at_begun s) (at_returned s), go K_range)
      | K_range => (s, go (K_cancel (at_cancelers s)))
      | K_cancel [] => (s, go K_unlock)
      | K_cancel (k :: todo) =>
          (AllT (at_watch s) (at_mtx s) (at_stopping s) (at_existing s) (at_cancelers s) (at_log s) (at_attached s ∖ {[k]})
                (at_roots s) (at_orphans s) (at_begun s) (at_returned s), go (K_cancel todo))
      | K_unlock => (at_set_mtx s None, go K_done)
      | _ => (s, th)
      end
  | ASpan t o =>
      match ah_pc th with
      | S_join => (if o then at_set_spans s (at_roots s) (<[i := t]> (at_orphans s)) else at_set_spans s (<[i := t]> (at_roots s)) (at_orphans s), go S_running)
      | S_running => (if o then at_set_spans s (at_roots s) (delete i (at_orphans s)) else at_set_spans s (delete i (at_roots s)) (at_orphans s), go S_done)
      | _ => (s, th)
      end
  end.
Definition at_exec (sched : list (action acall)) : config allt athread := exec at_start at_step at_new sched.

(** ** SpanCollector, collect/collect.go 40-144 *)

(** What a span reports: Id, Trace, ParentId (None when not ok; span.go 152-163). *)
Record sinfo := SInfo { si_id : Z; si_trace : nat; si_parent : option Z }.
(** FinishedSpan, 28-33; the time is left out. *)
Record fin := Fin { fs_span : nat; fs_err : option bytes; fs_panicked : bool }.

(** The check pointer: nil, donePointer or a span. *)
Inductive chk := CNil | CDone | CSpan (n : nat).
Definition chk_eqb (a b : chk) : bool :=
  match a, b with CNil, CNil => true | CDone, CDone => true | CSpan n, CSpan m => Nat.eqb n m | _, _ => false end.

(** spansByParent is keyed by ParentId ({0,false} is None); [cl_closes] counts close(done)
    calls: a second one panics. *)
Record coll := Coll {
  cl_check : chk;
  cl_mtx : option nat;
  cl_root : option fin;
  cl_map : gmap (option Z) (list fin);
  cl_closes : Z
}.
Definition cl_new : coll := Coll CNil None None ∅ 0.

(** Calls; [matched] is the matcher's answer. *)
Inductive kcall :=
| KStart (s : nat) (matched : bool)
| KForce (s : nat)
| KFinish (f : fin)
| KStop
| KSpans.
Inductive kpc :=
| M_load                      (* Start: load check, call matcher, 88 *)
| M_cas                       (* compareAndSwap, 91 and 82 *)
| M_done (won : bool)
| F_load                      (* Finish: load check, 98-102 *)
| F_lock (existing : nat)     (* 104 *)
| F_root (existing : nat)     (* c.root != nil?, 105 *)
| F_store (existing : nat)    (* existing == s?, 109-116 *)
| F_unlock (kept : bool)
| F_unlock_stop               (* unlock, then Stop, 111-112 *)
| F_swap                      (* Stop called by Finish *)
| F_close
| F_done (kept : bool)
| P_swap                      (* Stop: swap, 123 *)
| P_close                     (* close(c.done), 124 *)
| P_done
| V_lock                      (* Spans: lock, walk, 138-141 *)
| V_unlock (l : option (list fin))
| V_done (l : option (list fin)).
Record kthread := KThr { kt_call : kcall; kt_pc : kpc }.
Definition cl_start (c : kcall) : kthread :=
  KThr c (match c with KStart _ _ => M_load | KForce _ => M_cas | KFinish _ => F_load | KStop => P_swap | KSpans => V_lock end).

(** walkSpans, 132-137: the span, then the subtrees of the spans filed under its id.  The Go
    recursion has no bound; [None] means it went deeper than [fuel]. *)
Fixpoint walk (info : nat -> sinfo) (m : gmap (option Z) (list fin)) (fuel : nat) (f : fin) : option (list fin) :=
  match fuel with
  | O => None
  | S fuel' =>
      match mapM (walk info m fuel') (default [] (m !! Some (si_id (info (fs_span f))))) with
      | Some ls => Some (f :: concat ls)
      | None => None
      end
  end.

Section collector.
  Context (info : nat -> sinfo) (fuel : nat).

  Definition cl_set_mtx (s : coll) (m : option nat) : coll := Coll (cl_check s) m (cl_root s) (cl_map s) (cl_closes s).
  Definition cl_set_check (s : coll) (c : chk) : coll := Coll c (cl_mtx s) (cl_root s) (cl_map s) (cl_closes s).
  Definition cl_close (s : coll) : coll := Coll (cl_check s) (cl_mtx s) (cl_root s) (cl_map s) (cl_closes s + 1).

  Definition cl_step (i : nat) (s : coll) (t : kthread) : coll * kthread :=
    let go pc := KThr (kt_call t) pc in
    match kt_call t with
    | KStart n matched =>
        match kt_pc t with
        | M_load => if negb (chk_eqb (cl_check s) CNil) || negb matched then (s, go (M_done false)) else (s, go M_cas)
        | M_cas => if chk_eqb (cl_check s) CNil then (cl_set_check s (CSpan n), go (M_done true)) else (s, go (M_done false))
        | _ => (s, t)
        end
    | KForce n =>
        match kt_pc t with
        | M_cas => if chk_eqb (cl_check s) CNil then (cl_set_check s (CSpan n), go (M_done true)) else (s, go (M_done false))
        | _ => (s, t)
        end
    | KFinish f =>
        match kt_pc t with
        | F_load =>
            match cl_check s with
            | CSpan e => if Nat.eqb (si_trace (info e)) (si_trace (info (fs_span f))) then (s, go (F_lock e)) else (s, go (F_done false))
            | _ => (s, go (F_done false))
            end
        | F_lock e => match cl_mtx s with None => (cl_set_mtx s (Some i), go (F_root e)) | Some _ => (s, t) end
        | F_root e => match cl_root s with Some _ => (s, go (F_unlock false)) | None => (s, go (F_store e)) end
        | F_store e =>
            if Nat.eqb e (fs_span f)
            then (Coll (cl_check s) (cl_mtx s) (Some f) (cl_map s) (cl_closes s), go F_unlock_stop)
            else
              let key := si_parent (info (fs_span f)) in
              (Coll (cl_check s) (cl_mtx s) (cl_root s) (<[key := default [] (cl_map s !! key) ++ [f]]> (cl_map s)) (cl_closes s), go (F_unlock true))
        | F_unlock b => (cl_set_mtx s None, go (F_done b))
        | F_unlock_stop => (cl_set_mtx s None, go F_swap)
        | F_swap => (cl_set_check s CDone, go (if chk_eqb (cl_check s) CDone then F_done true else F_close))
        | F_close => (cl_close s, go (F_done true))
        | _ => (s, t)
        end
    | KStop =>
        match kt_pc t with
        | P_swap => (cl_set_check s CDone, go (if chk_eqb (cl_check s) CDone then P_done else P_close))
        | P_close => (cl_close s, go P_done)
        | _ => (s, t)
        end
    | KSpans =>
        match kt_pc t with
        | V_lock =>
            match cl_mtx s with
            | None => (cl_set_mtx s (Some i), go (V_unlock (match cl_root s with None => Some [] | Some r => walk info (cl_map s) fuel r end)))
            | Some _ => (s, t)
            end
        | V_unlock l => (cl_set_mtx s None, go (V_done l))
        | _ => (s, t)
        end
    end.
  Definition cl_exec (sched : list (action kcall)) : config coll kthread := exec cl_start cl_step cl_new sched.
End collector.

(** ** spanFinder, collect/collect.go 158-192 *)

(** doneFlag and the number of closes of doneCh; calls Start (with the matcher's answer) and
    Stop. *)
Record finder := Finder { fi_flag : bool; fi_closes : Z }.
Inductive fcall := FStart (matched : bool) | FStop.
Inductive fpc := Q_load | Q_swap | Q_close | Q_done.
Record fthread := FThr { ft_call : fcall; ft_pc : fpc }.
Definition fi_start (c : fcall) : fthread := FThr c (match c with FStart _ => Q_load | FStop => Q_swap end).
Definition fi_step (i : nat) (s : finder) (t : fthread) : finder * fthread :=
  let go pc := FThr (ft_call t) pc in
  match ft_pc t with
  | Q_load =>  (* 172-177 *)
      match ft_call t with
      | FStart matched => if fi_flag s || negb matched then (s, go Q_done) else (s, go Q_swap)
      | FStop => (s, t)
      end
  | Q_swap => (Finder true (fi_closes s), go (if fi_flag s then Q_done else Q_close))   (* 185 *)
  | Q_close => (Finder (fi_flag s) (fi_closes s + 1), go Q_done)                       (* 186 *)
  | Q_done => (s, t)
  end.
Definition fi_exec (sched : list (action fcall)) : config finder fthread := exec fi_start fi_step (Finder false 0) sched.
