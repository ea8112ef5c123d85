(** Context and task properties C23, C24, C53. *)
From Verif Require Import Base CtxModel CtxSpec CtxProofs.
Local Open Scope Z_scope.

(** C23: for every way of building a context, SpanFromCtx answers the span of the outermost
    Task call not hidden by a reset, user keys look up as if there were no spans and
    resets, and a Task directly on top of another adds no layer. *)
Theorem C23_context :
  forall ids st e,
    let c := snd (build ids st e) in
    span_from_ctx c = current_task (length (cs_spans st)) e /\
    (forall k, value (KUser k) c = option_map VUser (user_value k e)) /\
    depth c = layers e.
Proof. exact ctx_spec. Qed.
Print Assumptions C23_context.

(** Any number of further Task calls on the same context leave its depth as it is. *)
Theorem C23_no_growth :
  forall ids st fs f e,
    depth (snd (build ids st (fold_right ETask (ETask f e) fs))) = depth (snd (build ids st (ETask f e))).
Proof. exact ctx_no_growth. Qed.
Print Assumptions C23_no_growth.

Example C23_example :
  let e := EValue 1 10 (ETask 0 (ETask 0 (EReset (EValue 2 20 (ETask 0 EBackground))))) in
  let c := snd (build (fun _ => 0) cs_new e) in
  c = CValue 1 10 (CSpan 2 (CReset (CValue 2 20 (CSpan 0 CBackground)))) /\
  span_from_ctx c = Some 2%nat /\ value (KUser 2) c = Some (VUser 20) /\
  span_from_ctx (snd (build (fun _ => 0) cs_new (EValue 3 30 (EReset (ETask 0 EBackground))))) = None.
Proof. repeat split; vm_compute; reflexivity. Qed.

(** C24: after any program, a Task on a context holding a span becomes its child in its
    trace; no new trace is made or observed. *)
Theorem C24_task_child :
  forall ops f x args w p st' res,
    program ops -> var_span (crun ops) x = Some p ->
    func_task (crun ops) f (PVar x) (map AOther args) w = (st', res) ->
    exists r rp, res = RExit (length (cs_spans (crun ops))) /\
      cs_spans st' = cs_spans (crun ops) ++ [r] /\ cs_spans (crun ops) !! p = Some rp /\
      sr_f r = f /\ sr_parent r = Some p /\ sr_trace r = sr_trace rp /\
      parent_id st' (length (cs_spans (crun ops))) = Some (sr_id rp) /\
      cs_observed st' = cs_observed (crun ops) /\ cs_traces st' = cs_traces (crun ops).
Proof. exact task_with_span. Qed.
Print Assumptions C24_task_child.

(** Without a span in the context, or with a nil pointer, it is a root of a new trace, which
    is observed once. *)
Theorem C24_task_root :
  forall ops f p args w st' res,
    program ops -> ptr_span (crun ops) p = None ->
    func_task (crun ops) f (ptr p) (map AOther args) w = (st', res) ->
    exists r, res = RExit (length (cs_spans (crun ops))) /\
      cs_spans st' = cs_spans (crun ops) ++ [r] /\
      sr_f r = f /\ sr_parent r = None /\ parent_id st' (length (cs_spans (crun ops))) = None /\
      fresh_trace (crun ops) (sr_trace r) /\ cs_observed st' = cs_observed (crun ops) ++ [sr_trace r].
Proof. exact task_without_span. Qed.
Print Assumptions C24_task_root.

(** ResetTrace makes a root of a new observed trace, whatever the context. *)
Theorem C24_reset_trace :
  forall ops f p args w st' res,
    program ops ->
    reset_trace (crun ops) f (ptr p) (map AOther args) w = (st', res) ->
    exists r, res = RExit (length (cs_spans (crun ops))) /\
      cs_spans st' = cs_spans (crun ops) ++ [r] /\
      sr_f r = f /\ sr_parent r = None /\ parent_id st' (length (cs_spans (crun ops))) = None /\
      fresh_trace (crun ops) (sr_trace r) /\ cs_observed st' = cs_observed (crun ops) ++ [sr_trace r].
Proof. exact reset_spec. Qed.
Print Assumptions C24_reset_trace.

(** RemoteTrace makes a span without local parent that reports the given parent id; it is in
    the given trace, or without one in the context's, or else in a new one. *)
Theorem C24_remote_trace :
  forall ops f p pid tr w st' res,
    program ops -> match tr with Some t => (t < cs_traces (crun ops))%nat | None => True end ->
    remote_trace (crun ops) f (ptr p) pid tr w = (st', res) ->
    exists r, res = RExit (length (cs_spans (crun ops))) /\
      cs_spans st' = cs_spans (crun ops) ++ [r] /\
      sr_f r = f /\ sr_parent r = None /\ parent_id st' (length (cs_spans (crun ops))) = Some pid /\
      match tr, ptr_span (crun ops) p with
      | Some t, _ => sr_trace r = t /\ cs_observed st' = cs_observed (crun ops) ++ [t]
      | None, Some q => (exists rq, cs_spans (crun ops) !! q = Some rq /\ sr_trace r = sr_trace rq) /\
                        cs_observed st' = cs_observed (crun ops)
      | None, None => fresh_trace (crun ops) (sr_trace r) /\ cs_observed st' = cs_observed (crun ops) ++ [sr_trace r]
      end.
Proof. exact remote_spec. Qed.
Print Assumptions C24_remote_trace.

(** A task called with a context pointer leaves its span (as its observers pass it on) in
    that context and changes no other. *)
Theorem C24_context_updated :
  forall ops t x args found w st' i,
    program ops ->
    call_task (crun ops) t (PVar x) (map AOther args) found w = (st', RExit i) ->
    (exists c, cs_vars st' !! x = Some (w_obs w (CSpan i c))) /\
    forall y, y <> x -> cs_vars st' !! y = cs_vars (crun ops) !! y.
Proof. exact call_task_var. Qed.
Print Assumptions C24_context_updated.

(** With a nil pointer no context changes, nor the one used for all nil pointers. *)
Theorem C24_nil_context :
  forall ops t args found w st' res,
    program ops ->
    call_task (crun ops) t PNil (map AOther args) found w = (st', res) ->
    cs_vars st' = cs_vars (crun ops) /\ cs_unparented st' = CBackground.
Proof. exact call_task_nil. Qed.
Print Assumptions C24_nil_context.

(** The closure of Scope.Task behaves as Func.Task of the Func it found at its first call. *)
Theorem C24_scope_task :
  forall st cell p args found w fv,
    cs_tasks st !! cell = Some fv -> is_secret p = false ->
    let f := match fv with Some f => f | None => found end in
    let '(st', res) := scope_task st cell p args found w in
    let '(st'', res') := func_task st f p args w in
    res = res' /\ cs_spans st' = cs_spans st'' /\ cs_traces st' = cs_traces st'' /\
    cs_observed st' = cs_observed st'' /\ cs_unparented st' = cs_unparented st'' /\ cs_vars st' = cs_vars st''.
Proof. exact scope_task_eq. Qed.
Print Assumptions C24_scope_task.

Definition w0 (id : Z) : world := World id (fun c => c).
Definition ex24 : list cop :=
  [ONewTask; ONewTrace; OTask (TScope 0) (Some 0%nat) [] 5 (w0 100); OTask (TFunc 6) None [1%nat] 0 (w0 101);
   OValue 1 0 7 8; OTask (TReset 6) (Some 1%nat) [] 0 (w0 102)].
Example C24_example :
  program ex24 /\ var_span (crun ex24) 0 = Some 0%nat /\ var_span (crun ex24) 1 = Some 2%nat /\ var_span (crun ex24) 2 = None /\
  map sr_trace (cs_spans (crun ex24)) = [1; 2; 3]%nat /\ cs_observed (crun ex24) = [1; 2; 3]%nat /\
  map sr_parent (cs_spans (crun (ex24 ++ [OTask (TFunc 6) (Some 0%nat) [] 0 (w0 103)]))) = [None; None; None; Some 0%nat] /\
  parent_id (crun (ex24 ++ [ORemote 6 (Some 0%nat) 77 (Some 0%nat) (w0 104)])) 3 = Some 77.
Proof.
  split; [|repeat split; vm_compute; reflexivity].
  intros pre o post E. assert (Ho : In o ex24) by (rewrite E; apply in_or_app; right; left; reflexivity).
  cbn in Ho. repeat (destruct Ho as [<-|Ho]; [cbn; try exact I; intros c i H; left; exact H|]). contradiction.
Qed.

(** C53: Func() on a Task that is a method value answers its Func and changes nothing. *)
Theorem C53_func_task :
  forall st t found w, (forall cell, t <> TScope cell) ->
    task_func st t found w = (st, match t with TFunc f | TReset f => Some f | TScope _ => None end).
Proof. exact task_func_bound. Qed.
Print Assumptions C53_func_task.

(** On a Task from Scope.Task, at any time after it was called, Func() answers the Func of
    the span of that call and changes nothing; so all its calls record to the same Func. *)
Theorem C53_scope_task :
  forall pre cell p args found w st1 i post found' w',
    call_task (crun pre) (TScope cell) (ptr p) (map AOther args) found w = (st1, RExit i) ->
    exists r, cs_spans (crun (pre ++ OTask (TScope cell) p args found w :: post)) !! i = Some r /\
      task_func (crun (pre ++ OTask (TScope cell) p args found w :: post)) (TScope cell) found' w' =
        (crun (pre ++ OTask (TScope cell) p args found w :: post), Some (sr_f r)).
Proof. exact task_func_after. Qed.
Print Assumptions C53_scope_task.

Example C53_example :
  call_task (crun [ONewTask]) (TScope 0) (ptr None) (map AOther []) 5 (w0 1)
    = (crun [ONewTask; OTask (TScope 0) None [] 5 (w0 1)], RExit 0) /\
  snd (task_func (crun [ONewTask; OTask (TScope 0) None [] 5 (w0 1); OTask (TScope 0) None [] 9 (w0 2)]) (TScope 0) 9 (w0 3)) = Some 5%nat.
Proof. split; vm_compute; reflexivity. Qed.

(** Before its first call it panics. *)
Theorem C53_scope_task_refuted :
  exists ops cell, program ops /\ cs_tasks (crun ops) !! cell = Some None /\
    forall found w, snd (task_func (crun ops) (TScope cell) found w) = None.
Proof.
  exists [ONewTask], 0%nat. split; [|split; [reflexivity|reflexivity]].
  intros pre o post E. destruct pre as [|? pre]; [injection E as <- <-; exact I|]. injection E as _ E. destruct pre; discriminate E.
Qed.
Print Assumptions C53_scope_task_refuted.
