(** Contexts and how spans, traces and parents are chosen from them: ctx.go, task.go,
    Value and ParentId of span.go. *)
From Verif Require Import Base.
Local Open Scope Z_scope.

(** Keys of context values: spanKey (span.go 26-30, an unexported type, so no user key is
    equal to it) and all others. *)
Inductive key := KSpan | KUser (k : nat).
Inductive cval := VSpan (i : nat) | VUser (v : nat).

(** Contexts.  A span is its number (pointer) together with its Context field, which never
    changes; [CWrap] is any context of the standard library that passes Value on
    (WithCancel, WithDeadline, ...).  Nil *Span contexts are left out. *)
Inductive ctx :=
| CBackground
| CSecret
| CValue (k v : nat) (c : ctx)
| CWrap (c : ctx)
| CReset (c : ctx)
| CSpan (i : nat) (c : ctx).

(** Value: package context; taskSecretT, task.go 27; Span, span.go 74-79; resetContext,
    ctx.go 361-366. *)
Fixpoint value (k : key) (c : ctx) : option cval :=
  match c with
  | CBackground | CSecret => None
  | CValue k' v c' => match k with
                      | KUser n => if Nat.eqb n k' then Some (VUser v) else value k c'
                      | KSpan => value k c'
                      end
  | CWrap c' => value k c'
  | CReset c' => match k with KSpan => None | _ => value k c' end
  | CSpan i c' => match k with KSpan => Some (VSpan i) | _ => value k c' end
  end.

(** SpanFromCtx, ctx.go 50-57. *)
Definition span_from_ctx (c : ctx) : option nat :=
  match c with
  | CSpan i _ => Some i
  | _ => match value KSpan c with Some (VSpan i) => Some i | _ => None end
  end.

(** How many contexts a lookup of an absent key visits. *)
Fixpoint depth (c : ctx) : nat :=
  match c with
  | CBackground | CSecret => 0
  | CValue _ _ c' | CWrap c' | CReset c' | CSpan _ c' => S (depth c')
  end.

(** The fields of a Span that are fixed at construction, ctx.go 32-38; funcs and traces are
    numbered. *)
Record srec := SRec {
  sr_id : Z;
  sr_f : nat;
  sr_trace : nat;
  sr_parent : option nat;
  sr_pid : option Z;
  sr_ctx : ctx
}.

(** All spans made so far; the number of traces made so far; the traces given to
    observeTrace; the variable [unparented] (ctx.go 283); the program's context variables,
    [None] being nil; the [f] variables of the closures made by Scope.Task. *)
Record cstate := CState {
  cs_spans : list srec;
  cs_traces : nat;
  cs_observed : list nat;
  cs_unparented : ctx;
  cs_vars : gmap nat ctx;
  cs_tasks : list (option nat)
}.
Definition cs_new : cstate := CState [] 0 [] CBackground ∅ [].

Definition add_span (st : cstate) (r : srec) : cstate :=
  CState (cs_spans st ++ [r]) (cs_traces st) (cs_observed st) (cs_unparented st) (cs_vars st) (cs_tasks st).
Definition new_trace (st : cstate) : cstate :=
  CState (cs_spans st) (S (cs_traces st)) (cs_observed st) (cs_unparented st) (cs_vars st) (cs_tasks st).
Definition observe_trace (st : cstate) (t : nat) : cstate :=
  CState (cs_spans st) (cs_traces st) (cs_observed st ++ [t]) (cs_unparented st) (cs_vars st) (cs_tasks st).
Definition set_var (st : cstate) (x : nat) (c : ctx) : cstate :=
  CState (cs_spans st) (cs_traces st) (cs_observed st) (cs_unparented st) (<[x := c]> (cs_vars st)) (cs_tasks st).

Definition span_trace (st : cstate) (i : nat) : nat :=
  match cs_spans st !! i with Some r => sr_trace r | None => 0%nat end.

(** What the outside world contributes to one call: the new span's id, and the context its
    observers' Start makes of the span (the span itself without observers). *)
Record world := World { w_id : Z; w_obs : ctx -> ctx }.

(** newSpan, ctx.go 59-111, without the bookkeeping of SpanModel.v.  Answers the new state,
    the new context and the new span's number. *)
Definition new_span (st : cstate) (c : ctx) (f : nat) (trace : option nat) (pid : option Z) (w : world)
  : cstate * ctx * nat :=
  let '(st1, c1, parent, tr) :=
    match c with
    | CSpan i c' =>
        match trace with
        | None => (st, c', Some i, span_trace st i)
        | Some t => (st, c', None, t)
        end
    | _ =>
        match value KSpan c with
        | Some (VSpan i) =>
            match trace with
            | None => (st, c, Some i, span_trace st i)
            | Some t => (st, c, None, t)
            end
        | _ =>
            match trace with
            | None => (observe_trace (new_trace st) (cs_traces st), c, None, cs_traces st)
            | Some t => (st, c, None, t)
            end
        end
    end in
  let parent' := match pid with Some _ => None | None => parent end in
  let i := length (cs_spans st1) in
  (add_span st1 (SRec (w_id w) f tr parent' pid c1), w_obs w (CSpan i c1), i).

(** A pointer to a context variable. *)
Inductive cptr := PNil | PVar (x : nat) | PSecret.

Definition is_secret (p : cptr) : bool := match p with PSecret => true | _ => false end.

(** cleanCtx and reading the pointer, ctx.go 285-302. *)
Definition clean_ctx (st : cstate) (p : cptr) : cstate * ctx :=
  match p with
  | PNil => (st, cs_unparented st)
  | PSecret => (st, CSecret)
  | PVar x => match cs_vars st !! x with
              | Some c => (st, c)
              | None => (set_var st x CBackground, CBackground)
              end
  end.
(** `if ctx != &unparented { *ctx = s }`; the secret is never assigned because its calls
    return before (or run as an ordinary context if the arguments are not the secret ones;
    then the variable taskSecret itself is overwritten, which no caller outside the package
    can bring about). *)
Definition assign (st : cstate) (p : cptr) (c : ctx) : cstate :=
  match p with PVar x => set_var st x c | _ => st end.

(** Arguments of a Task: the key taskGetFunc, the address of Func()'s result, others. *)
Inductive targ := AKey | AOut | AOther (v : nat).

(** taskArgs, task.go 50-67: whether a method was dispatched. *)
Definition task_args (args : list targ) : bool :=
  match args with [AKey; AOut] => true | _ => false end.

(** The result of calling a Task: nil, with what was stored at the address of the result;
    or the exit function of a new span. *)
Inductive tresult := RNil (out : option nat) | RExit (i : nat).

(** A Task value: the method values Func.Task and Func.ResetTrace, or a closure made by
    Scope.Task. *)
Inductive task := TFunc (f : nat) | TReset (f : nat) | TScope (cell : nat).

(** Func.Task, ctx.go 239-249. *)
Definition func_task (st : cstate) (f : nat) (p : cptr) (args : list targ) (w : world) : cstate * tresult :=
  let (st1, c) := clean_ctx st p in
  if is_secret p && task_args args then (st1, RNil (Some f))
  else let '(st2, c', i) := new_span st1 c f None None w in
       (assign st2 p c', RExit i).

(** ResetTrace, ctx.go 268-281. *)
Definition reset_trace (st : cstate) (f : nat) (p : cptr) (args : list targ) (w : world) : cstate * tresult :=
  let (st1, c) := clean_ctx st p in
  if is_secret p && task_args args then (st1, RNil (Some f))
  else let tr := cs_traces st1 in
       let st2 := observe_trace (new_trace st1) tr in
       let '(st3, c', i) := new_span st2 c f (Some tr) None w in
       (assign st3 p c', RExit i).

(** RemoteTrace, ctx.go 254-265. *)
Definition remote_trace (st : cstate) (f : nat) (p : cptr) (pid : Z) (trace : option nat) (w : world)
  : cstate * tresult :=
  let (st1, c) := clean_ctx st p in
  let st2 := match trace with Some t => observe_trace st1 t | None => st1 end in
  let '(st3, c', i) := new_span st2 c f trace (Some pid) w in
  (assign st3 p c', RExit i).

Definition set_task (st : cstate) (cell : nat) (f : option nat) : cstate :=
  CState (cs_spans st) (cs_traces st) (cs_observed st) (cs_unparented st) (cs_vars st) (<[cell := f]> (cs_tasks st)).

(** The closure of Scope.Task, ctx.go 205-223; [found] is the Func that
    FuncNamed(callerFunc(3)) would answer now.  A cell that does not exist does nothing. *)
Definition scope_task (st : cstate) (cell : nat) (p : cptr) (args : list targ) (found : nat) (w : world)
  : cstate * tresult :=
  match cs_tasks st !! cell with
  | None => (st, RNil None)
  | Some fv =>
      let (st1, c) := clean_ctx st p in
      if is_secret p && task_args args then (st1, RNil fv)
      else
        let f := match fv with Some f => f | None => found end in
        let st2 := set_task st1 cell (Some f) in
        let '(st3, c', i) := new_span st2 c f None None w in
        (assign st3 p c', RExit i)
  end.

Definition call_task (st : cstate) (t : task) (p : cptr) (args : list targ) (found : nat) (w : world) : cstate * tresult :=
  match t with
  | TFunc f => func_task st f p args w
  | TReset f => reset_trace st f p args w
  | TScope cell => scope_task st cell p args found w
  end.

(** Task.Func, task.go 34-48; [None] is the panic "Func() called on a non-Task function". *)
Definition task_func (st : cstate) (t : task) (found : nat) (w : world) : cstate * option nat :=
  let (st', r) := call_task st t PSecret [AKey; AOut] found w in
  (st', match r with RNil out => out | RExit _ => None end).

(** Span.ParentId, span.go 156-163. *)
Definition parent_id (st : cstate) (i : nat) : option Z :=
  match cs_spans st !! i with
  | None => None
  | Some r =>
      match sr_pid r with
      | Some p => Some p
      | None => match sr_parent r with
                | Some j => match cs_spans st !! j with Some rj => Some (sr_id rj) | None => None end
                | None => None
                end
      end
  end.

(** Programs: calls of tasks, and what a program may do with its context variables. *)
Inductive cop :=
| OTask (t : task) (p : option nat) (args : list nat) (found : nat) (w : world)
| ORemote (f : nat) (p : option nat) (pid : Z) (trace : option nat) (w : world)
| OFunc (t : task) (found : nat) (w : world)            (* t.Func() *)
| ONewTask                                              (* scope.Task() *)
| ONewTrace                                             (* NewTrace by the program *)
| OBackground (x : nat)
| ONilVar (x : nat)                                     (* x = nil *)
| OCopy (x y : nat)
| OValue (x y k v : nat)                                (* x = context.WithValue(y, k, v) *)
| OWrap (x y : nat)
| OReset (x y : nat).                                   (* x = ResetContextSpan(y) *)

Definition ptr (p : option nat) : cptr := match p with Some x => PVar x | None => PNil end.
(** Building a context from nil panics and assigns nothing. *)
Definition from_var (st : cstate) (x y : nat) (g : ctx -> ctx) : cstate :=
  match cs_vars st !! y with Some c => set_var st x (g c) | None => st end.

Definition cstep (st : cstate) (o : cop) : cstate :=
  match o with
  | OTask t p args found w => fst (call_task st t (ptr p) (map AOther args) found w)
  | ORemote f p pid trace w => fst (remote_trace st f (ptr p) pid trace w)
  | OFunc t found w => fst (task_func st t found w)
  | ONewTask => CState (cs_spans st) (cs_traces st) (cs_observed st) (cs_unparented st) (cs_vars st) (cs_tasks st ++ [None])
  | ONewTrace => new_trace st
  | OBackground x => set_var st x CBackground
  | ONilVar x => CState (cs_spans st) (cs_traces st) (cs_observed st) (cs_unparented st) (delete x (cs_vars st)) (cs_tasks st)
  | OCopy x y => from_var st x y (fun c => c)
  | OValue x y k v => from_var st x y (CValue k v)
  | OWrap x y => from_var st x y CWrap
  | OReset x y => from_var st x y CReset
  end.
Definition crun (ops : list cop) : cstate := fold_left cstep ops cs_new.
