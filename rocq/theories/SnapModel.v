(** Shared slices that are only appended to, and read outside the lock: Span.annotations
    (span.go 173-186) and errorNameHandlers.value (error_names.go 38-57); maps that are
    copied before they are handed out: Trace.vals (trace.go 112-141), FuncStats.errors
    (funcstats.go 103, 133-141). *)
From Verif Require Import Base Conc.

Section slices.
  Context {A Y : Type}.
  Context (zero : A) (grow : nat -> nat).

  (** A slice: its array, length and capacity; all start at the beginning of the array. *)
  Record gslice := GSlice { gs_ptr : nat; gs_len : nat; gs_cap : nat }.
  (** The arrays.  The tag, not read by the code, says which call allocated the array for
      its own result; [None]: allocated by an append to the shared slice. *)
  Local Notation gmem := (list (option nat * list A)).
  Definition garray (m : gmem) (p : nat) : list A := match m !! p with Some (_, a) => a | None => [] end.
  Definition gcontents (m : gmem) (p n : nat) : list A := take n (garray m p).
  Definition gset (m : gmem) (p k : nat) (x : A) : gmem :=
    match m !! p with Some (o, a) => <[p := (o, <[k := x]> a)]> m | None => m end.

  (** append of one element: in place if the capacity allows, else into a new array whose
      capacity the runtime chooses *)
  Definition gappend (m : gmem) (s : gslice) (x : A) : gmem * gslice :=
    let n := S (gs_len s) in
    if gs_len s <? gs_cap s then (gset m (gs_ptr s) (gs_len s) x, GSlice (gs_ptr s) n (gs_cap s))
    else
      let c := Nat.max n (grow n) in
      (m ++ [(None, gcontents m (gs_ptr s) (gs_len s) ++ x :: repeat zero (c - n))], GSlice (length m) n c).

  (** Annotate, AddErrorNameHandler; Annotations; the handler loop of getErrorName, where
      [f] is what a handler says. *)
  Inductive scall := SAppend (x : A) | SCopy | SSearch (f : A -> option Y).
  Inductive spc :=
  | W_lock                        (* span.go 182, error_names.go 39 *)
  | W_write (s : gslice)          (* the append; the slice is loaded, 42 *)
  | W_publish (s : gslice)        (* the assignment of 183; Store, 44 *)
  | W_unlock                      (* 184; the deferred Unlock *)
  | W_done
  | C_lock                        (* span.go 174 *)
  | C_load                        (* 175 *)
  | C_unlock (s : gslice)         (* 176 *)
  | C_alloc (s : gslice)          (* 177: append to a nil slice *)
  | C_copy (s : gslice) (dst k : nat)   (* its elements *)
  | C_done (ret : option (nat * nat))   (* array and length; None: nil *)
  | S_load                        (* error_names.go 51 *)
  | S_at (s : gslice) (k : nat)   (* 52-56 with i = k - 1 *)
  | S_done (res : option Y).
  Record sthread := SThr { st_call : scall; st_pc : spc }.
  Definition s_start (c : scall) : sthread :=
    SThr c (match c with SAppend _ => W_lock | SCopy => C_lock | SSearch _ => S_load end).

  (** Memory, the shared slice, the mutex (the holder's number is not read by the code);
      and, not read by the code, the appends in order. *)
  Record sshared := SShared { ss_mem : gmem; ss_value : gslice; ss_lock : option nat; ss_log : list nat }.
  (** A nil slice; its array is number 0. *)
  Definition s_new : sshared := SShared [(None, [])] (GSlice 0 0 0) None [].

  Definition set_pc (t : sthread) (pc : spc) : sthread := SThr (st_call t) pc.
  Definition with_mem (s : sshared) (m : gmem) : sshared := SShared m (ss_value s) (ss_lock s) (ss_log s).
  Definition with_lock (s : sshared) (l : option nat) : sshared := SShared (ss_mem s) (ss_value s) l (ss_log s).

  Definition s_step (i : nat) (s : sshared) (t : sthread) : sshared * sthread :=
    match st_pc t with
    | W_lock => match ss_lock s with None => (with_lock s (Some i), set_pc t (W_write (ss_value s))) | Some _ => (s, t) end
    | W_write sl =>
        match st_call t with
        | SAppend x => (with_mem s (fst (gappend (ss_mem s) sl x)), set_pc t (W_publish (snd (gappend (ss_mem s) sl x))))
        | _ => (s, t)
        end
    | W_publish sl => (SShared (ss_mem s) sl (ss_lock s) (ss_log s ++ [i]), set_pc t W_unlock)
    | W_unlock => (with_lock s None, set_pc t W_done)
    | C_lock => match ss_lock s with None => (with_lock s (Some i), set_pc t C_load) | Some _ => (s, t) end
    | C_load => (s, set_pc t (C_unlock (ss_value s)))
    | C_unlock sl => (with_lock s None, set_pc t (C_alloc sl))
    | C_alloc sl =>
        match gs_len sl with
        | 0%nat => (s, set_pc t (C_done None))
        | n => (with_mem s (ss_mem s ++ [(Some i, repeat zero (Nat.max n (grow n)))]), set_pc t (C_copy sl (length (ss_mem s)) 0))
        end
    | C_copy sl dst k =>
        if k <? gs_len sl
        then (with_mem s (gset (ss_mem s) dst k (default zero (garray (ss_mem s) (gs_ptr sl) !! k))), set_pc t (C_copy sl dst (S k)))
        else (s, set_pc t (C_done (Some (dst, gs_len sl))))
    | S_load => (s, set_pc t (S_at (ss_value s) (gs_len (ss_value s))))
    | S_at sl 0%nat => (s, set_pc t (S_done None))
    | S_at sl (S k) =>
        match st_call t with
        | SSearch f =>
            match f (default zero (garray (ss_mem s) (gs_ptr sl) !! k)) with
            | Some y => (s, set_pc t (S_done (Some y)))
            | None => (s, set_pc t (S_at sl k))
            end
        | _ => (s, t)
        end
    | W_done | C_done _ | S_done _ => (s, t)
    end.
  Definition s_exec (sched : list (action scall)) : config sshared sthread := exec s_start s_step s_new sched.
  (** What the returned slice holds. *)
  Definition ret_contents (m : gmem) (ret : option (nat * nat)) : list A :=
    match ret with Some (dst, n) => gcontents m dst n | None => [] end.
End slices.
Arguments scall A Y : clear implicits.
Arguments spc Y : clear implicits.
Arguments sthread A Y : clear implicits.
Arguments sshared A : clear implicits.
Notation gmem A := (list (option nat * list A)).

(** ** Maps handed out *)

(** All maps ever made; number 0 is the one the object keeps (nil behaves as empty). *)
Section maps.
  Context {K V : Type} `{Countable K}.
  Local Notation maps := (list (gmap K V)).
  Inductive mop :=
  | MUpdate (k : K) (f : option V -> V)     (* Trace.Set, trace.go 132-140; errors[name] += 1, funcstats.go 103 *)
  | MGet (k : K)                            (* Trace.Get, 123-130 *)
  | MGetAll                                 (* Trace.GetAll, 112-120; Errors, funcstats.go 133-141 *)
  | MCaller (n : nat) (k : K) (v : V).      (* the caller writes to a map it was given *)
  Inductive mres := MNone | MVal (v : option V) | MRef (n : nat).
  Definition m_own (h : maps) : gmap K V := default ∅ (h !! 0%nat).
  Definition m_step (h : maps) (o : mop) : maps * mres :=
    match o with
    | MUpdate k f => (<[0%nat := <[k := f (m_own h !! k)]> (m_own h)]> h, MNone)
    | MGet k => (h, MVal (m_own h !! k))
    | MGetAll => (h ++ [m_own h], MRef (length h))
    | MCaller n k v =>
        match n with
        | 0%nat => (h, MNone)               (* the object's own map is never handed out *)
        | _ => match h !! n with Some m => (<[n := <[k := v]> m]> h, MNone) | None => (h, MNone) end
        end
    end.
  Fixpoint m_run (h : maps) (os : list mop) : maps * list mres :=
    match os with
    | [] => (h, [])
    | o :: os => let '(h, r) := m_step h o in let '(h, rs) := m_run h os in (h, r :: rs)
    end.
  Definition m_new : maps := [∅].
End maps.
Arguments mop K V : clear implicits.
Arguments mres V : clear implicits.
Notation maps K V := (list (gmap K V)).
