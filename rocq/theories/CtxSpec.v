(** Vocabulary for the context properties. *)
From Verif Require Import Base CtxModel.
Local Open Scope Z_scope.

(** How a program builds a context: any nesting of Task calls, user values, wrappers and
    ResetContextSpan. *)
Inductive cexpr :=
| EBackground
| EValue (k v : nat) (e : cexpr)
| EWrap (e : cexpr)
| EReset (e : cexpr)
| ETask (f : nat) (e : cexpr).

(** Building it, starting with state [st]; the Task calls go through Func.Task on a
    variable of their own. *)
Fixpoint build (ids : nat -> Z) (st : cstate) (e : cexpr) : cstate * ctx :=
  match e with
  | EBackground => (st, CBackground)
  | EValue k v e' => let (st', c) := build ids st e' in (st', CValue k v c)
  | EWrap e' => let (st', c) := build ids st e' in (st', CWrap c)
  | EReset e' => let (st', c) := build ids st e' in (st', CReset c)
  | ETask f e' =>
      let (st', c) := build ids st e' in
      let st'' := fst (func_task (set_var st' 0 c) f (PVar 0) [] (World (ids (length (cs_spans st'))) (fun c => c))) in
      (st'', default CBackground (cs_vars st'' !! 0%nat))
  end.

Fixpoint tasks (e : cexpr) : nat :=
  match e with
  | EBackground => 0
  | EValue _ _ e' | EWrap e' | EReset e' => tasks e'
  | ETask _ e' => S (tasks e')
  end.
(** The outermost Task call not hidden below a reset, numbering the Task calls from the
    inside, starting with [n]. *)
Fixpoint current_task (n : nat) (e : cexpr) : option nat :=
  match e with
  | EBackground | EReset _ => None
  | EValue _ _ e' | EWrap e' => current_task n e'
  | ETask _ e' => Some (n + tasks e')%nat
  end.
Fixpoint user_value (k : nat) (e : cexpr) : option nat :=
  match e with
  | EBackground => None
  | EValue k' v e' => if Nat.eqb k k' then Some v else user_value k e'
  | EWrap e' | EReset e' | ETask _ e' => user_value k e'
  end.
(** Layers of a context when a Task directly on top of another adds none. *)
Fixpoint layers (e : cexpr) : nat :=
  match e with
  | EBackground => 0
  | EValue _ _ e' | EWrap e' | EReset e' => S (layers e')
  | ETask _ e' => match e' with ETask _ _ => layers e' | _ => S (layers e') end
  end.

(** The span in context variable [x], nil counting as Background. *)
Definition var_span (st : cstate) (x : nat) : option nat :=
  match cs_vars st !! x with Some c => span_from_ctx c | None => None end.
(** ... and of the context a Task is given, a nil pointer having none. *)
Definition ptr_span (st : cstate) (p : option nat) : option nat := match p with Some x => var_span st x | None => None end.
(** A trace no span has and no watcher has seen. *)
Definition fresh_trace (st : cstate) (tr : nat) : Prop :=
  tr ∉ cs_observed st /\ forall i r, cs_spans st !! i = Some r -> sr_trace r <> tr.
(** The world of a call behaves: the context answered by its observers holds the span of
    the one they were given or an older one, or none. *)
Definition world_ok (st : cstate) (w : world) : Prop :=
  forall c i, span_from_ctx (w_obs w c) = Some i -> span_from_ctx c = Some i \/ (i < length (cs_spans st))%nat.
(** Programs give RemoteTrace only traces that NewTrace has made. *)
Definition op_ok (st : cstate) (o : cop) : Prop :=
  match o with
  | OTask _ _ _ _ w | OFunc _ _ w => world_ok st w
  | ORemote _ _ _ tr w => world_ok st w /\ match tr with Some t => (t < cs_traces st)%nat | None => True end
  | _ => True
  end.
Definition program (ops : list cop) : Prop :=
  forall pre o post, ops = pre ++ o :: post -> op_ok (crun pre) o.
