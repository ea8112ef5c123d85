(** C98 when all calls have returned, and that they can always do so. *)
From Verif Require Import Base SpecBase ScopeSpec Conc FuncStatsModel FuncStatsSpec SpanModel SpanSpec TaskModel TaskSpec TaskProofs TaskProps TaskSettle.
Local Open Scope Z_scope.

Lemma run_calls sched more : (forall a, a ∈ more -> exists i, a = Run i) -> map wt_call (threads (w_exec (sched ++ more))) = map wt_call (threads (w_exec sched)).
Proof.
  induction more as [|a more IH] using rev_ind; intros H; [rewrite app_nil_r; reflexivity|].
  rewrite <- IH by (intros b Hb; apply H, elem_of_app; left; exact Hb). destruct (H a) as [i ->]; [apply elem_of_app; right; left|].
  rewrite app_assoc. destruct (threads (w_exec (sched ++ more)) !! i) as [t|] eqn:Ht.
  - unfold w_exec in *. rewrite (exec_run _ _ _ _ i t Ht). cbn [threads]. rewrite map_insert.
    rewrite (proj2 (in_step_step i _ t (threads_in_step (sched ++ more) i t Ht))). apply list_insert_id. rewrite list_lookup_fmap, Ht. reflexivity.
  - unfold w_exec in *. rewrite (exec_run_none _ _ _ _ i Ht). reflexivity.
Qed.
Lemma calls_same s s' i c : map wt_call (threads (w_exec s)) = map wt_call (threads (w_exec s')) -> call_at s i c -> call_at s' i c.
Proof.
  intros E (t & Ht & Hc). assert (X : map wt_call (threads (w_exec s')) !! i = Some c) by (rewrite <- E, list_lookup_fmap, Ht, <- Hc; reflexivity).
  rewrite list_lookup_fmap in X. destruct (threads (w_exec s') !! i) as [u|] eqn:Hu; [|discriminate X]. exists u. split; [exact Hu|]. apply Some_inj in X. exact X.
Qed.
Lemma lawful_same s s' : map wt_call (threads (w_exec s)) = map wt_call (threads (w_exec s')) -> lawful s -> lawful s'.
Proof.
  intros E H i c Hc. destruct (H i c (calls_same s' s i c (eq_sym E) Hc)) as [O P]. split; [exact O|].
  destruct (sc_parent (wc_span c)) as [p|]; [|exact P]. destruct P as (Hp & c' & Hc' & Q). split; [exact Hp|]. exists c'. split; [exact (calls_same s s' p c' E Hc')|exact Q].
Qed.

(** When all calls have returned, AllSpans yields nothing and Current of every Func is 0. *)
Theorem C98_finished :
  forall sched info mord fuel, lawful sched -> (forall i t, threads (w_exec sched) !! i = Some t -> is_over t = true) ->
    any_order mord -> (length (threads (w_exec sched)) <= fuel)%nat ->
    all_spans info mord (w_spans (shared (w_exec sched))) fuel = [] /\ forall f, fs_current (stats_after sched f) = 0.
Proof.
  intros sched info mord fuel Hl Ho Hm Hf.
  destruct (C98_current sched info mord fuel Hl (fun i t Ht => or_intror (Ho i t Ht)) Hm Hf) as (_ & M & C).
  assert (E : all_spans info mord (w_spans (shared (w_exec sched))) fuel = []).
  { destruct (all_spans info mord (w_spans (shared (w_exec sched))) fuel) as [|i l]; [reflexivity|exfalso].
    destruct (proj1 (M i)) as (t & Ht & B); [left|]. specialize (Ho i t Ht). unfold is_over, body_runs in *. destruct (st_pc (wt_span t)); discriminate. }
  split; [exact E|]. intros f. rewrite C, E. reflexivity.
Qed.
Print Assumptions C98_finished.

(** Whatever has happened, the calls made so far can all go on to their end without any new call,
    and then nothing is left of them. *)
Theorem C98_settles :
  forall sched, lawful sched -> exists more,
    (forall a, a ∈ more -> exists i, a = Run i) /\ lawful (sched ++ more) /\
    (forall i t, threads (w_exec (sched ++ more)) !! i = Some t -> is_over t = true) /\
    (forall info mord fuel, any_order mord -> (length (threads (w_exec sched)) <= fuel)%nat -> all_spans info mord (w_spans (shared (w_exec (sched ++ more)))) fuel = []) /\
    forall f, fs_current (stats_after (sched ++ more) f) = 0.
Proof.
  intros sched Hl. destruct (settle sched (length (threads (w_exec sched)))) as (more & Hm & Hn & Ho). exists more.
  pose proof (lawful_same sched (sched ++ more) (eq_sym (run_calls sched more Hm)) Hl) as Hl'.
  assert (Ho' : forall i t, threads (w_exec (sched ++ more)) !! i = Some t -> is_over t = true).
  { intros i t Ht. apply (Ho i t); [|exact Ht]. rewrite <- Hn. eapply lookup_lt_Some, Ht. }
  split; [exact Hm|]. split; [exact Hl'|]. split; [exact Ho'|]. split.
  - intros info mord fuel Hd Hf. apply C98_finished; try assumption. rewrite Hn. exact Hf.
  - apply (C98_finished (sched ++ more) (fun _ => (B "", 0)) (fun l => l) (length (threads (w_exec (sched ++ more)))) Hl' Ho'); [intros l; reflexivity|reflexivity].
Qed.
Print Assumptions C98_settles.

Example C98_settles_example : lawful ex98 /\ exists more, all_spans (fun _ => (B "", 0)) (fun l => l) (w_spans (shared (w_exec (ex98 ++ more)))) 3 = [].
Proof.
  split; [exact (proj1 C98_example)|]. destruct (C98_settles ex98 (proj1 C98_example)) as (more & _ & _ & _ & A & _). exists more. apply A; [intros l; reflexivity|].
  assert (length (threads (w_exec ex98)) = 3%nat) as -> by (vm_compute; reflexivity). lia.
Qed.
