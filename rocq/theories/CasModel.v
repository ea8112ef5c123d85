(** The pointer operations of the two builds: cas_unsafe.go and collect/cas_unsafe.go
    (atomic instructions), cas_safe.go and collect/cas_safe.go (build tag appengine: plain
    reads and writes under one global mutex).

    A program is any set of goroutines whose accesses to the pointers go through these
    functions.  Per goroutine local state [l], [prog i l] says what the goroutine does
    next: a pointer operation and what it does with the result, or anything else. *)
From Verif Require Import Base Conc.

(** loadFunc, loadSpan, loadTraceWatcherRef, loadSpanObserverTuple; storeTraceWatcherRef;
    swapSpan; compareAndSwapFunc, compareAndSwapSpan, compareAndSwapSpanObserverTuple. *)
Inductive pop (A P : Type) :=
| Load (a : A)
| Store (a : A) (v : P)
| Swap (a : A) (v : P)
| Cas (a : A) (old new : P).
Arguments Load {A P} a.
Arguments Store {A P} a v.
Arguments Swap {A P} a v.
Arguments Cas {A P} a old new.
(** What they return: a pointer, a bool, or nothing. *)
Inductive pres (P : Type) := RPtr (v : P) | RBool (b : bool) | RNone.
Arguments RPtr {P} v.
Arguments RBool {P} b.
Arguments RNone {P}.

(** [hist] updates the history kept for stating properties, and what the goroutine prepared
    beforehand where no other can see it (a node not yet published). *)
Inductive stmt (A P S L : Type) :=
| Ptr (o : pop A P) (hist : pres P -> S -> S) (k : pres P -> L)
| Other (f : S -> S * L).
Arguments Ptr {A P S L} o hist k.
Arguments Other {A P S L} f.

Section cas.
  Context {A P S L C : Type} {eqP : EqDecision P}.
  Context (get : A -> S -> P) (set : A -> P -> S -> S) (start : C -> L) (prog : nat -> L -> stmt A P S L).

  (** cas_unsafe.go 29-71, collect/cas_unsafe.go 27-45: one atomic instruction each. *)
  Definition atomic_op (o : pop A P) (s : S) : S * pres P :=
    match o with
    | Load a => (s, RPtr (get a s))
    | Store a v => (set a v s, RNone)
    | Swap a v => (set a v s, RPtr (get a s))
    | Cas a old new => if bool_decide (get a s = old) then (set a new s, RBool true) else (s, RBool false)
    end.
  Definition u_step (i : nat) (s : S) (l : L) : S * L :=
    match prog i l with
    | Ptr o hist k => let (s', r) := atomic_op o s in (hist r s', k r)
    | Other f => f s
    end.
  Definition u_exec (s0 : S) (sched : list (action C)) : config S L := exec start u_step s0 sched.

  (** cas_safe.go 26-76, collect/cas_safe.go 30-55.  A goroutine outside of these functions;
      holding bigHonkinMutex and about to read the pointer; about to write it, having read
      [v]; about to unlock and return, whereupon its state is [l]. *)
  Inductive hthread :=
  | HOut (l : L)
  | HRead (l : L)
  | HWrite (l : L) (v : option P)
  | HUnlock (l : L).
  (** The shared state and the goroutine that holds bigHonkinMutex. *)
  Definition h_start (c : C) : hthread := HOut (start c).
  Definition h_step (i : nat) (sm : S * option nat) (t : hthread) : (S * option nat) * hthread :=
    let (s, m) := sm in
    match t with
    | HOut l =>
        match prog i l with
        | Ptr o _ _ =>     (* bigHonkinMutex.Lock() *)
            match m with
            | Some _ => (sm, t)
            | None => ((s, Some i), match o with Store _ _ => HWrite l None | _ => HRead l end)
            end
        | Other f => let (s', l') := f s in ((s', m), HOut l')
        end
    | HRead l =>
        match prog i l with
        | Ptr (Load a) hist k => ((hist (RPtr (get a s)) s, m), HUnlock (k (RPtr (get a s))))
        | Ptr (Swap a _) _ _ => (sm, HWrite l (Some (get a s)))
        | Ptr (Cas a old _) hist k =>
            if bool_decide (get a s = old) then (sm, HWrite l (Some (get a s))) else ((hist (RBool false) s, m), HUnlock (k (RBool false)))
        | _ => (sm, t)
        end
    | HWrite l v =>
        match prog i l with
        | Ptr (Store a new) hist k => ((hist RNone (set a new s), m), HUnlock (k RNone))
        | Ptr (Swap a new) hist k => match v with Some prev => ((hist (RPtr prev) (set a new s), m), HUnlock (k (RPtr prev))) | None => (sm, t) end
        | Ptr (Cas a _ new) hist k => ((hist (RBool true) (set a new s), m), HUnlock (k (RBool true)))
        | _ => (sm, t)
        end
    | HUnlock l => ((s, None), HOut l)   (* bigHonkinMutex.Unlock() *)
    end.
  Definition h_exec (s0 : S) (sched : list (action C)) : config (S * option nat) hthread := exec h_start h_step (s0, None) sched.
End cas.
Arguments HOut {P L} l.
Arguments HRead {P L} l.
Arguments HWrite {P L} l v.
Arguments HUnlock {P L} l.
