(** Span properties C19 to C22 and the Task part of C55. *)
From Verif Require Import Base BaseProofs Conc ScopeSpec FuncStatsModel FuncStatsSpec SpanModel SpanSpec SpanProofs.
Local Open Scope Z_scope.

(** C19: after any balanced history of adds and removes the bag reports a span iff it was
    added more often than removed. *)
Theorem C19_bag :
  forall ops ord s, balanced ops -> any_order ord ->
    s ∈ bag_iterate ord (bag_run ops) <-> 0 < balance s ops.
Proof. exact bag_reports. Qed.
Print Assumptions C19_bag.

(** Children lists each such span once, ordered by (full name, id). *)
Theorem C19_children :
  forall info ops ord, balanced ops -> any_order ord ->
    let l := bag_children info ord (bag_run ops) in
    NoDup l /\ (forall s, s ∈ l <-> 0 < balance s ops) /\
    StronglySorted (fun i j => span_less info j i = false) l.
Proof. exact children_spec. Qed.
Print Assumptions C19_children.

(** The same span is in the fast path and in the map; Iterate meets it twice. *)
Definition ex19 := [BAdd 1; BAdd 2; BRemove 1; BAdd 2; BAdd 2; BRemove 2]%nat.
Example C19_example :
  balanced ex19 /\ any_order (fun l : list nat => l) /\
  bag_iterate (fun l => l) (bag_run ex19) = [2]%nat /\
  bag_iterate (fun l => l) (bag_run [BAdd 1; BAdd 2; BRemove 1; BAdd 2]%nat) = [2; 2]%nat /\
  bag_children (fun _ => (B "f", 0)) (fun l => l) (bag_run [BAdd 1; BAdd 2; BRemove 1; BAdd 2]%nat) = [2]%nat.
Proof.
  split; [|split; [intros l; reflexivity|repeat split; vm_compute; reflexivity]].
  intros pre post s E. unfold ex19 in E.
  do 7 (destruct pre as [|? pre]; [destruct s as [|[|[|s]]]; vm_compute; discriminate|
    try discriminate E; apply cons_inv in E as [<- E]]).
Qed.

(** C20: when no start or finish is half-way, RootSpans reports exactly the running spans
    without parent or with a finished one, each once and in order. *)
Theorem C20_roots :
  forall sched info mord, well_formed sched -> quiet sched -> any_order mord ->
    let l := root_spans info mord (spans_after sched) in
    NoDup l /\
    (forall i, i ∈ l <-> running sched i /\ (no_parent sched i \/ exists p, parent_is sched i p /\ finished sched p)) /\
    StronglySorted (fun i j => span_less info j i = false) l.
Proof. exact root_spans_spec. Qed.
Print Assumptions C20_roots.

(** AllSpans reports exactly the running spans, each once; the recursion depth is at most
    the number of spans. *)
Theorem C20_all :
  forall sched info mord, well_formed sched -> quiet sched -> any_order mord ->
  forall fuel, (length (threads (sp_exec sched)) <= fuel)%nat ->
    NoDup (all_spans info mord (spans_after sched) fuel) /\
    forall i, i ∈ all_spans info mord (spans_after sched) fuel <-> running sched i.
Proof. exact all_spans_spec. Qed.
Print Assumptions C20_all.

(** When all spans have finished, the registry and the parents hold none. *)
Theorem C20_nothing_retained :
  forall sched, well_formed sched ->
    (forall i, (i < length (threads (sp_exec sched)))%nat -> finished sched i) ->
    sp_roots (spans_after sched) = ∅ /\ sp_orphans (spans_after sched) = ∅ /\
    forall p, children_of (spans_after sched) p = bag_empty.
Proof. exact nothing_retained. Qed.
Print Assumptions C20_nothing_retained.

(** Span 0 with children 1 and 2, 3 below 1; 1 finishes first. *)
Definition sc (p : option nat) : scall := SCall p 0 UReturn None (fun l => l).
Definition start (i : nat) (p : option nat) : list (action scall) := [Spawn (sc p); Run i; Run i].
Definition finish (i steps : nat) : list (action scall) := repeat (Run i) steps.
Definition ex20 : list (action scall) :=
  start 0 None ++ start 1 (Some 0%nat) ++ start 2 (Some 0%nat) ++ start 3 (Some 1%nat) ++ finish 1 7.
Definition ex20_end : list (action scall) := ex20 ++ finish 0 8 ++ finish 2 8 ++ finish 3 8.

Lemma ex_wf sched :
  forallb (fun it => match sc_parent (st_call (snd it)) with Some p => Nat.ltb p (fst it) | None => true end)
          (zip (seq 0 (length (threads (sp_exec sched)))) (threads (sp_exec sched))) = true ->
  (forall i t, threads (sp_exec sched) !! i = Some t -> sc_ord (st_call t) = fun l => l) -> well_formed sched.
Proof.
  intros H Ho i t Hi. split; [|intros l; rewrite (Ho _ _ Hi); reflexivity].
  intros p Hp. rewrite forallb_forall in H. specialize (H (i, t)). cbn in H. rewrite Hp in H. apply Nat.ltb_lt, H.
  apply elem_of_list_In, elem_of_list_lookup. exists i. apply lookup_zip_with_Some. exists i, t.
  split; [reflexivity|]. split; [|exact Hi]. rewrite lookup_seq. split; [lia|]. apply lookup_lt_Some in Hi. lia.
Qed.
Ltac ex_ord := intros i t Hi; vm_compute in Hi;
  repeat (destruct i as [|i]; [apply (f_equal (option_map (fun t => sc_ord (st_call t)))) in Hi; cbn in Hi; congruence|cbn in Hi]);
  try discriminate Hi.

Example C20_example :
  well_formed ex20 /\ quiet ex20 /\
  running ex20 0 /\ finished ex20 1 /\ running ex20 2 /\ running ex20 3 /\
  root_spans (fun i => (B "f", Z.of_nat i)) (fun l => l) (spans_after ex20) = [0; 3]%nat /\
  all_spans (fun i => (B "f", Z.of_nat i)) (fun l => l) (spans_after ex20) 4 = [0; 2; 3]%nat /\
  well_formed ex20_end /\ (forall i, (i < length (threads (sp_exec ex20_end)))%nat -> finished ex20_end i).
Proof.
  split_and!.
  - apply ex_wf; [vm_compute; reflexivity|ex_ord].
  - intros i Hi. vm_compute in Hi. do 4 (destruct i as [|i]; [first [left; eexists; vm_compute; reflexivity|right; eexists _, _; vm_compute; reflexivity]|]). lia.
  - eexists. vm_compute. reflexivity.
  - eexists _, _. vm_compute. reflexivity.
  - eexists. vm_compute. reflexivity.
  - eexists. vm_compute. reflexivity.
  - vm_compute. reflexivity.
  - vm_compute. reflexivity.
  - apply ex_wf; [vm_compute; reflexivity|ex_ord].
  - intros i Hi. vm_compute in Hi. do 4 (destruct i as [|i]; [eexists _, _; vm_compute; reflexivity|]). lia.
Qed.

(** While span 0 is finishing, its running child is listed under it and as a root. *)
Theorem C20_all_refuted :
  exists sched info fuel, well_formed sched /\ (length (threads (sp_exec sched)) <= fuel)%nat /\
    all_spans info (fun l => l) (spans_after sched) fuel = [0; 1; 1]%nat.
Proof.
  exists (start 0 None ++ start 1 (Some 0%nat) ++ finish 0 4), (fun i => (B "f", Z.of_nat i)), 2%nat.
  split; [apply ex_wf; [vm_compute; reflexivity|ex_ord]|]. split; [vm_compute; lia|vm_compute; reflexivity].
Qed.
Print Assumptions C20_all_refuted.

(** C21: Trace.Spans is the number of spans of the trace that started counting and have not
    finished, never negative, and 0 when all have finished. *)
Theorem C21_trace_count :
  forall sched tr,
    trace_count (spans_after sched) tr = Z.of_nat (length (List.filter (counted tr) (threads (sp_exec sched)))) /\
    0 <= trace_count (spans_after sched) tr /\
    ((forall i, (i < length (threads (sp_exec sched)))%nat -> finished sched i) -> trace_count (spans_after sched) tr = 0).
Proof. exact trace_count_spec. Qed.
Print Assumptions C21_trace_count.

Example C21_example :
  trace_count (spans_after ex20) 0 = 3 /\ trace_count (spans_after ex20_end) 0 = 0 /\
  (forall i, (i < length (threads (sp_exec ex20_end)))%nat -> finished ex20_end i).
Proof.
  split; [vm_compute; reflexivity|]. split; [vm_compute; reflexivity|].
  intros i Hi. vm_compute in Hi. do 4 (destruct i as [|i]; [eexists _, _; vm_compute; reflexivity|]). lia.
Qed.

(** C22: when no operation is half-way, a running span is orphaned iff it has a parent and
    that has finished. *)
Theorem C22_orphaned :
  forall sched, well_formed sched -> quiet sched -> forall i, running sched i ->
    (i ∈ sp_orphaned (spans_after sched) <-> exists p, parent_is sched i p /\ finished sched p).
Proof. exact quiet_orphaned. Qed.
Print Assumptions C22_orphaned.

(** A span running when its parent's exit function returned is orphaned from then on. *)
Theorem C22_orphaned_after_parent :
  forall sched more i p, well_formed (sched ++ more) ->
    running sched i -> parent_is sched i p -> finished sched p ->
    i ∈ sp_orphaned (spans_after (sched ++ more)).
Proof. exact orphaned_after_parent. Qed.
Print Assumptions C22_orphaned_after_parent.

(** A span that began finishing before its parent is never orphaned. *)
Theorem C22_not_orphaned_before_parent :
  forall sched more i, well_formed (sched ++ more) ->
    began_finishing sched i -> (forall p, parent_is sched i p -> ~ began_finishing sched p) ->
    i ∉ sp_orphaned (spans_after (sched ++ more)).
Proof. exact not_orphaned_before_parent. Qed.
Print Assumptions C22_not_orphaned_before_parent.

(** Overlapping finishes: the child begins finishing after its parent did and is not
    orphaned; with one more step of the parent first, it is. *)
Example C22_overlap :
  let pre := start 0 None ++ start 1 (Some 0%nat) ++ finish 0 3 in
  bool_decide (1%nat ∈ sp_orphaned (spans_after (pre ++ finish 1 7 ++ finish 0 7))) = false /\
  bool_decide (1%nat ∈ sp_orphaned (spans_after (pre ++ finish 0 1 ++ finish 1 7 ++ finish 0 7))) = true.
Proof. split; vm_compute; reflexivity. Qed.

Definition ex22 : list (action scall) := start 0 None ++ start 1 (Some 0%nat) ++ finish 1 3.
Example C22_example :
  running ex20 3 /\ parent_is ex20 3 1 /\ finished ex20 1 /\ well_formed (ex20 ++ finish 3 8) /\
  well_formed (ex22 ++ finish 0 8) /\ began_finishing ex22 1 /\ (forall p, parent_is ex22 1 p -> ~ began_finishing ex22 p).
Proof.
  split_and!.
  - eexists. vm_compute. reflexivity.
  - eexists. vm_compute. split; reflexivity.
  - eexists _, _. vm_compute. reflexivity.
  - apply ex_wf; [vm_compute; reflexivity|ex_ord].
  - apply ex_wf; [vm_compute; reflexivity|ex_ord].
  - eexists. vm_compute. split; reflexivity.
  - intros p (t & Ht & Hp) (t' & Ht' & Hf).
    apply (f_equal (option_map (fun t => sc_parent (st_call t)))) in Ht. cbn [option_map] in Ht. rewrite Hp in Ht.
    assert (E : Some (Some 0%nat) = Some (Some p)) by (rewrite <- Ht; vm_compute; reflexivity).
    assert (p = 0%nat) by congruence. subst p.
    apply (f_equal (option_map (fun t => finishing (st_pc t)))) in Ht'. cbn [option_map] in Ht'. rewrite Hf in Ht'. vm_compute in Ht'. discriminate Ht'.
Qed.

(** C55 for Task: an exit function that has ended has recorded its span once: as a panic
    iff one with a non-nil value was under way, which goes on with the same value; else as
    its error pointer says, and no panic starts.  It has taken the span out of the
    registry and its parent. *)
Theorem C55_task :
  forall sched i c u,
    well_formed sched -> threads (sp_exec sched) !! i = Some (SThr c (X_done u)) ->
    let s := spans_after sched in
    i ∉ sp_roots s /\ i ∉ sp_orphans s /\ i ∈ sp_done s /\
    (forall p ord, any_order ord -> i ∉ bag_iterate ord (children_of s p)) /\
    exists err pk, ends_rec i (sp_ends s) = [(i, err, pk)] /\
    match sc_unwind c with
    | UPanic (Some v) => classify err pk = CPanic /\ u = UPanic (Some v)
    | UPanic None => u = UReturn
    | w => classify err pk = (match sc_errptr c with Some (Some e) => CError e | _ => CSuccess end) /\ u = w
    end.
Proof. exact task_exit. Qed.
Print Assumptions C55_task.

Definition ex55 : list (action scall) :=
  start 0 None ++ [Spawn (SCall (Some 0%nat) 0 (UPanic (Some 7%nat)) (Some (Some (B "e"))) (fun l => l)); Run 1; Run 1] ++ finish 1 9.
Example C55_task_example :
  well_formed ex55 /\
  option_map st_pc (threads (sp_exec ex55) !! 1%nat) = Some (X_done (UPanic (Some 7%nat))) /\
  sp_ends (spans_after ex55) = [(1%nat, Some (B "e"), true)].
Proof.
  split; [apply ex_wf; [vm_compute; reflexivity|ex_ord]|]. split; vm_compute; reflexivity.
Qed.
