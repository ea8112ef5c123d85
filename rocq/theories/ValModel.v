(** BoolVal, val.go 112-160; the values guarded by a mutex around a distribution: IntVal,
    FloatVal, DurationVal (val.go 22-110, 203-250) and Timer (timer.go 24-98). *)
From Verif Require Import Base Conc Fval DistModel.
Local Open Scope Z_scope.

(** ** BoolVal *)

(** val.go 124-129 *)
Record bshared := BShared { bv_trues : Z; bv_falses : Z; bv_recent : Z }.
Definition bv_new : bshared := BShared 0 0 0.

Inductive bcall := BObserve (v : bool) | BStats.
Inductive bpc :=
| B_add                       (* val.go 139 or 142 *)
| B_store                     (* 140 or 143 *)
| B_trues                     (* 149 *)
| B_falses (t : Z)            (* 150 *)
| B_recent (t f : Z)          (* 151 *)
| B_done (out : list (bytes * fval)).   (* what the call passed to cb *)
Record bthread := BThr { bt_call : bcall; bt_pc : bpc }.
Definition b_start (c : bcall) : bthread := BThr c (match c with BObserve _ => B_add | BStats => B_trues end).

(** val.go 152-155; the int64 subtraction wraps *)
Definition bool_report (t f r : Z) : list (bytes * fval) :=
  [(B "disposition", FInt (wrap64 (t - f))); (B "false", FInt f); (B "recent", FInt r); (B "true", FInt t)].

Definition b_step (i : nat) (s : bshared) (t : bthread) : bshared * bthread :=
  let c := bt_call t in
  match bt_pc t with
  | B_add =>
      match c with
      | BObserve true => (BShared (wrap64 (bv_trues s + 1)) (bv_falses s) (bv_recent s), BThr c B_store)
      | BObserve false => (BShared (bv_trues s) (wrap64 (bv_falses s + 1)) (bv_recent s), BThr c B_store)
      | BStats => (s, t)
      end
  | B_store =>
      match c with
      | BObserve v => (BShared (bv_trues s) (bv_falses s) (if v then 1 else 0), BThr c (B_done []))
      | BStats => (s, t)
      end
  | B_trues => (s, BThr c (B_falses (bv_trues s)))
  | B_falses x => (s, BThr c (B_recent x (bv_falses s)))
  | B_recent x y => (s, BThr c (B_done (bool_report x y (bv_recent s))))
  | B_done _ => (s, t)
  end.
Definition b_exec (sched : list (action bcall)) : config bshared bthread := exec b_start b_step bv_new sched.

(** ** A distribution behind a mutex *)
Section dist.
  Context {V F R : Type}.
  Context (vzero : V) (vlt : V -> V -> bool) (vadd : V -> V -> V).
  Context (fzero : F) (to32 : V -> F) (fless : F -> F -> bool).
  Context (rng_next : R -> Z * R) (seed : R).

  (** What Stats passes to cb (intdist.go, durdist.go, floatdist.go 169-184): the count, a
      value, the reservoir average over the listed elements, or the given quantile over
      the listed sorted elements. *)
  Inductive dval :=
  | DCount (n : Z)
  | DValue (v : V)
  | DAverageOf (l : list F)
  | DQuantileOf (q : bytes) (l : list F).

  (** Stats of a distribution.  Each Query may sort the reservoir, the first one (rmin)
      always leaves it sorted. *)
  Definition dist_stats (d : dist V F R) : list (bytes * dval) :=
    let q := query_reads fless in
    let d1 := query_state fless d in
    (B "count", DCount (d_count d)) ::
    (if 0 <? d_count d then
       [(B "sum", DValue (d_sum d)); (B "min", DValue (d_low d)); (B "max", DValue (d_high d));
        (B "rmin", DQuantileOf (B "0") (q d)); (B "ravg", DAverageOf (average_reads d1));
        (B "r10", DQuantileOf (B ".1") (q d1)); (B "r50", DQuantileOf (B ".5") (q d1));
        (B "r90", DQuantileOf (B ".9") (q d1)); (B "r99", DQuantileOf (B ".99") (q d1));
        (B "rmax", DQuantileOf (B "1") (q d1)); (B "recent", DValue (d_recent d1))]
     else []).

  (** Calls: Observe (with the value of Window at that time); Quantile; Stats, whose copy
      gets a generator [r]; Timer.Values likewise; Stop of running timer number [k], which
      measured [elapsed]. *)
  Inductive vcall :=
  | VObserve (W : Z) (v : V)
  | VQuantile
  | VStats (r : R)
  | VValues (r : R)
  | VStop (k : nat) (W : Z) (elapsed : V).
  Inductive vresult :=
  | RNone
  | RReads (l : list F)             (* what Quantile interpolates *)
  | RStats (l : list (bytes * dval))
  | RCopy (d : dist V F R)
  | RElapsed (v : V).
  Inductive vpc :=
  | V_start
  | V_lock                          (* timer.go 72: elapsed is known *)
  | V_emit (d : dist V F R)         (* val.go 57, timer.go 97: the copy is made *)
  | V_panic (m : bytes)             (* Insert panicked; the mutex stays locked *)
  | V_done (res : vresult).
  Record vthread := VThr { vt_call : vcall; vt_pc : vpc }.
  Definition v_start (c : vcall) : vthread := VThr c V_start.

  (** The distribution (or that an Insert panicked with the mutex held), the running
      timers that are stopped; and, not read by the code, the calls in the order of their
      critical sections. *)
  Record vshared := VShared { vs_dist : outcome (dist V F R); vs_stopped : list nat; vs_order : list nat }.
  Definition v_new : vshared := VShared (Ok (dist_new vzero fzero seed)) [] [].

  Definition v_insert (W : Z) (d : dist V F R) (v : V) : outcome (dist V F R) := dist_insert vlt vadd to32 rng_next W d v.
  Definition v_after (d : outcome (dist V F R)) (res : vresult) : vpc := match d with Ok _ => V_done res | Panic m => V_panic m end.
  Definition v_locked (i : nat) (s : vshared) (d : outcome (dist V F R)) : vshared := VShared d (vs_stopped s) (vs_order s ++ [i]).

  (** Critical sections are one step.  After a panic inside one the mutex stays locked and
      every later call blocks. *)
  Definition v_step (i : nat) (s : vshared) (t : vthread) : vshared * vthread :=
    let c := vt_call t in
    match vt_pc t with
    | V_start =>
        match c with
        | VStop _ _ _ => (s, VThr c V_lock)                                          (* timer.go 71 *)
        | _ =>
            match vs_dist s with
            | Panic _ => (s, t)
            | Ok d =>
                match c with
                | VObserve W v => (v_locked i s (v_insert W d v), VThr c (v_after (v_insert W d v) RNone))        (* val.go 45-47 *)
                | VQuantile => (v_locked i s (Ok (query_state fless d)), VThr c (V_done (RReads (query_reads fless d))))  (* 63-66 *)
                | VStats r => (v_locked i s (Ok d), VThr c (V_emit (dist_copy d r)))           (* 52-54 *)
                | VValues r => (v_locked i s (Ok d), VThr c (V_done (RCopy (dist_copy d r))))  (* timer.go 84-87 *)
                | VStop _ _ _ => (s, t)
                end
            end
        end
    | V_lock =>
        match c, vs_dist s with
        | VStop k W e, Ok d =>                                                       (* timer.go 72-77 *)
            if existsb (Nat.eqb k) (vs_stopped s) then (v_locked i s (Ok d), VThr c (V_done (RElapsed e)))
            else (VShared (v_insert W d e) (k :: vs_stopped s) (vs_order s ++ [i]), VThr c (v_after (v_insert W d e) (RElapsed e)))
        | _, _ => (s, t)
        end
    | V_emit d => (s, VThr c (V_done (RStats (dist_stats d))))
    | V_panic _ | V_done _ => (s, t)
    end.
  Definition v_exec (sched : list (action vcall)) : config vshared vthread := exec v_start v_step v_new sched.
End dist.
Arguments dval V F : clear implicits.
Arguments vcall V R : clear implicits.
Arguments vresult V F R : clear implicits.
Arguments vthread V F R : clear implicits.
Arguments vshared V F R : clear implicits.
