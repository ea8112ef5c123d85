(** Lemmas about contexts. *)
From Verif Require Import Base CtxModel CtxSpec.
Local Open Scope Z_scope.

Lemma value_span c : value KSpan c = option_map VSpan (span_from_ctx c).
Proof.
  assert (H : forall c, value KSpan c = None \/ exists i, value KSpan c = Some (VSpan i)).
  { clear. induction c; cbn; eauto. }
  unfold span_from_ctx. destruct (H c) as [E|[i E]]; destruct c; cbn in *; try rewrite E; try reflexivity; congruence.
Qed.
Lemma span_of_value c : span_from_ctx c = match value KSpan c with Some (VSpan i) => Some i | _ => None end.
Proof. rewrite value_span. destruct (span_from_ctx c); reflexivity. Qed.

Definition strip (c : ctx) : ctx := match c with CSpan _ c' => c' | _ => c end.
Lemma new_span_eq st c f tr pid w :
  new_span st c f tr pid w =
  (add_span (match tr, span_from_ctx c with None, None => observe_trace (new_trace st) (cs_traces st) | _, _ => st end)
     (SRec (w_id w) f
        (match tr with Some t => t | None => match span_from_ctx c with Some p => span_trace st p | None => cs_traces st end end)
        (match pid, tr with None, None => span_from_ctx c | _, _ => None end) pid (strip c)),
   w_obs w (CSpan (length (cs_spans st)) (strip c)), length (cs_spans st)).
Proof.
  unfold new_span. destruct c as [| |k v c|c|c|i c].
  6: { cbn [span_from_ctx strip]. destruct tr as [t|], pid as [q|]; reflexivity. }
  all: rewrite value_span; cbn [strip]; destruct (span_from_ctx _) as [j|]; cbn [option_map];
    destruct tr as [t|], pid as [q|]; reflexivity.
Qed.

(** ** C23 *)
Lemma build_spans ids st e : cs_spans (fst (build ids st e)) = cs_spans (fst (build ids st e)) /\
  length (cs_spans (fst (build ids st e))) = (length (cs_spans st) + tasks e)%nat /\
  span_from_ctx (snd (build ids st e)) = current_task (length (cs_spans st)) e /\
  (forall k, value (KUser k) (snd (build ids st e)) = option_map VUser (user_value k e)) /\
  depth (snd (build ids st e)) = layers e /\
  (match e with ETask _ _ => exists i c, snd (build ids st e) = CSpan i c
   | _ => forall i c, snd (build ids st e) <> CSpan i c end).
Proof.
  induction e as [|k v e IH|e IH|e IH|f e IH]; cbn [build].
  - cbn. repeat split; try lia. discriminate.
  - destruct (build ids st e) as [st' c]. cbn in *. destruct IH as (_ & H1 & H2 & H3 & H4 & H5).
    split; [reflexivity|]. split; [exact H1|]. split; [rewrite <- H2, !span_of_value; reflexivity|].
    split; [|split; [lia|discriminate]]. intros n. destruct (Nat.eqb n k); [reflexivity|apply H3].
  - destruct (build ids st e) as [st' c]. cbn in *. destruct IH as (_ & H1 & H2 & H3 & H4 & H5).
    split; [reflexivity|]. split; [exact H1|]. split; [rewrite <- H2, !span_of_value; reflexivity|].
    split; [exact H3|split; [lia|discriminate]].
  - destruct (build ids st e) as [st' c]. cbn in *. destruct IH as (_ & H1 & H2 & H3 & H4 & H5).
    repeat split; try assumption; try lia. discriminate.
  - destruct (build ids st e) as [st' c]. cbn [fst snd] in *. destruct IH as (_ & H1 & H2 & H3 & H4 & H5).
    set (w := World _ _). unfold func_task. cbn [clean_ctx set_var cs_vars]. rewrite lookup_insert. cbn [is_secret andb].
    rewrite new_span_eq. cbn [assign fst snd w_obs w set_var cs_vars]. rewrite lookup_insert. cbn [default].
    split; [reflexivity|]. split; [|split; [|split; [|split]]].
    + destruct (span_from_ctx c); cbn; rewrite app_length, H1; cbn; lia.
    + cbn. rewrite H1. reflexivity.
    + intros n. cbn. rewrite <- H3. destruct c; reflexivity.
    + cbn [depth layers default]. destruct e; cbn in H5 |- *; try (destruct c; cbn in *; try congruence; lia).
      all: try (destruct c; cbn in *; try (exfalso; eapply H5; reflexivity); lia).
      destruct H5 as (i & c' & ->). cbn in *. lia.
    + cbn. eauto.
Qed.

Lemma ctx_spec ids st e :
  let c := snd (build ids st e) in
  span_from_ctx c = current_task (length (cs_spans st)) e /\
  (forall k, value (KUser k) c = option_map VUser (user_value k e)) /\
  depth c = layers e.
Proof. destruct (build_spans ids st e) as (_ & _ & H2 & H3 & H4 & _). auto. Qed.

Lemma layers_repeat fs f e : layers (fold_right ETask (ETask f e) fs) = layers (ETask f e).
Proof. induction fs as [|g fs IH]; [reflexivity|]. cbn [fold_right]. rewrite <- IH. destruct fs; reflexivity. Qed.
Lemma ctx_no_growth ids st fs f e :
  depth (snd (build ids st (fold_right ETask (ETask f e) fs))) = depth (snd (build ids st (ETask f e))).
Proof.
  rewrite (proj2 (proj2 (ctx_spec ids st (fold_right ETask (ETask f e) fs)))), (proj2 (proj2 (ctx_spec ids st (ETask f e)))).
  apply layers_repeat.
Qed.

(** ** The state *)
Record cinv (st : cstate) : Prop := {
  C1 : cs_unparented st = CBackground;
  C2 : forall x c i, cs_vars st !! x = Some c -> span_from_ctx c = Some i -> (i < length (cs_spans st))%nat;
  C3 : forall t, t ∈ cs_observed st -> (t < cs_traces st)%nat;
  C4 : forall i r, cs_spans st !! i = Some r -> (sr_trace r < cs_traces st)%nat
}.
Lemma cinv_new : cinv cs_new.
Proof.
  constructor; [reflexivity|intros x c i H; cbn in H; rewrite lookup_empty in H; discriminate H| |].
  - intros t H. cbn in H. set_solver.
  - intros i r H. discriminate H.
Qed.
Lemma cinv_set_var st x c : cinv st -> (forall i, span_from_ctx c = Some i -> (i < length (cs_spans st))%nat) -> cinv (set_var st x c).
Proof.
  intros [H1 H2 H3 H4] Hc. constructor; cbn; try assumption.
  intros y c' i Hy. destruct (decide (y = x)) as [->|Hne].
  - rewrite lookup_insert in Hy. injection Hy as <-. apply Hc.
  - rewrite lookup_insert_ne in Hy by congruence. apply (H2 _ _ _ Hy).
Qed.
Lemma cinv_observe st t : cinv st -> (t < cs_traces st)%nat -> cinv (observe_trace st t).
Proof.
  intros [H1 H2 H3 H4] Ht. constructor; cbn; try assumption.
  intros u Hu. apply elem_of_app in Hu as [Hu|Hu]; [apply H3, Hu|]. apply elem_of_list_singleton in Hu. congruence.
Qed.
Lemma cinv_new_trace st : cinv st -> cinv (new_trace st).
Proof.
  intros [H1 H2 H3 H4]. constructor; cbn; try assumption.
  - intros t Ht. apply H3 in Ht. lia.
  - intros i r Hr. apply H4 in Hr. lia.
Qed.
Lemma cinv_add st r : cinv st -> (sr_trace r < cs_traces st)%nat -> cinv (add_span st r).
Proof.
  intros [H1 H2 H3 H4] Hr. constructor; cbn; try assumption.
  - intros x c i Hx Hi. rewrite app_length. specialize (H2 _ _ _ Hx Hi). lia.
  - intros i r' Hi. apply lookup_app_Some in Hi as [Hi|[_ Hi]]; [apply (H4 _ _ Hi)|].
    destruct (i - length (cs_spans st))%nat as [|n]; [|destruct n; discriminate Hi]. injection Hi as <-. exact Hr.
Qed.
Lemma cinv_tasks st l : cinv st ->
  cinv (CState (cs_spans st) (cs_traces st) (cs_observed st) (cs_unparented st) (cs_vars st) l).
Proof. intros [H1 H2 H3 H4]. constructor; assumption. Qed.

Lemma cinv_span_trace st i : cinv st -> (i < length (cs_spans st))%nat -> (span_trace st i < cs_traces st)%nat.
Proof.
  intros H Hi. unfold span_trace. destruct (cs_spans st !! i) as [r|] eqn:E; [exact (C4 _ H _ _ E)|].
  apply lookup_ge_None in E. lia.
Qed.

Lemma new_span_cinv st c f tr pid w st' c' i :
  new_span st c f tr pid w = (st', c', i) ->
  cinv st -> (forall j, span_from_ctx c = Some j -> (j < length (cs_spans st))%nat) ->
  match tr with Some t => (t < cs_traces st)%nat | None => True end ->
  world_ok st w ->
  cinv st' /\ (forall j, span_from_ctx c' = Some j -> (j < length (cs_spans st'))%nat).
Proof.
  intros E Hinv Hc Htr Hw. rewrite new_span_eq in E.
  apply pair_equal_spec in E as [E _]. apply pair_equal_spec in E as [<- <-]. split.
  - destruct tr as [t|].
    + apply cinv_add; assumption.
    + destruct (span_from_ctx c) as [p|].
      * apply cinv_add; [assumption|]. cbn. apply cinv_span_trace; [assumption|]. apply Hc. reflexivity.
      * apply cinv_add; [apply cinv_observe; [apply cinv_new_trace, Hinv|cbn; lia]|cbn; lia].
  - intros j Hj. apply Hw in Hj. cbn in Hj. destruct tr as [t|]; [|destruct (span_from_ctx c)]; cbn; rewrite app_length; cbn;
      (destruct Hj as [Hj|Hj]; [injection Hj as <-; lia|lia]).
Qed.

Lemma clean_cinv st p st' c : cinv st -> clean_ctx st p = (st', c) ->
  cinv st' /\ (forall j, span_from_ctx c = Some j -> (j < length (cs_spans st'))%nat) /\
  cs_traces st' = cs_traces st /\ cs_spans st' = cs_spans st /\ cs_observed st' = cs_observed st /\ cs_tasks st' = cs_tasks st.
Proof.
  intros H E. destruct p as [|x|]; cbn in E.
  - injection E as <- <-. rewrite (C1 _ H). split; [exact H|]. split; [discriminate|auto].
  - destruct (cs_vars st !! x) as [cx|] eqn:Ex; injection E as <- <-.
    + split; [exact H|]. split; [intros j; apply (C2 _ H _ _ _ Ex)|auto].
    + split; [apply cinv_set_var; [exact H|discriminate]|]. split; [discriminate|auto].
  - injection E as <- <-. split; [exact H|]. split; [discriminate|auto].
Qed.

Lemma assign_cinv st p c : cinv st -> (forall j, span_from_ctx c = Some j -> (j < length (cs_spans st))%nat) -> cinv (assign st p c).
Proof. destruct p; cbn; auto using cinv_set_var. Qed.

Lemma world_ok_same st st' w : cs_spans st' = cs_spans st -> world_ok st w -> world_ok st' w.
Proof. intros E H c i Hi. rewrite E. apply H, Hi. Qed.

Lemma func_task_cinv st f p args w : cinv st -> world_ok st w -> cinv (fst (func_task st f p args w)).
Proof.
  intros H Hw. unfold func_task. destruct (clean_ctx st p) as [st1 c] eqn:E1.
  destruct (clean_cinv _ _ _ _ H E1) as (H1 & Hc & _ & Es & _). destruct (_ && _); [exact H1|].
  destruct (new_span st1 c f None None w) as [[st2 c'] i] eqn:E2.
  destruct (new_span_cinv _ _ _ _ _ _ _ _ _ E2 H1 Hc I (world_ok_same _ _ _ Es Hw)) as [H2 Hc2].
  cbn. apply assign_cinv; assumption.
Qed.
Lemma reset_trace_cinv st f p args w : cinv st -> world_ok st w -> cinv (fst (reset_trace st f p args w)).
Proof.
  intros H Hw. unfold reset_trace. destruct (clean_ctx st p) as [st1 c] eqn:E1.
  destruct (clean_cinv _ _ _ _ H E1) as (H1 & Hc & _ & Es & _). destruct (_ && _); [exact H1|].
  destruct (new_span _ c f _ None w) as [[st2 c'] i] eqn:E2.
  assert (H2 : cinv (observe_trace (new_trace st1) (cs_traces st1))) by (apply cinv_observe; [apply cinv_new_trace, H1|cbn; lia]).
  destruct (new_span_cinv _ _ _ _ _ _ _ _ _ E2 H2 Hc (Nat.lt_succ_diag_r _) (world_ok_same st (observe_trace (new_trace st1) (cs_traces st1)) _ Es Hw)) as [H3 Hc2].
  cbn. apply assign_cinv; assumption.
Qed.
Lemma remote_trace_cinv st f p pid tr w : cinv st -> world_ok st w ->
  match tr with Some t => (t < cs_traces st)%nat | None => True end -> cinv (fst (remote_trace st f p pid tr w)).
Proof.
  intros H Hw Htr. unfold remote_trace. destruct (clean_ctx st p) as [st1 c] eqn:E1.
  destruct (clean_cinv _ _ _ _ H E1) as (H1 & Hc & Et & Es & _).
  destruct (new_span _ c f tr (Some pid) w) as [[st2 c'] i] eqn:E2.
  assert (Htr' : match tr with Some t => (t < cs_traces (match tr with Some t => observe_trace st1 t | None => st1 end))%nat | None => True end).
  { destruct tr; cbn; [rewrite Et; exact Htr|exact I]. }
  assert (H2 : cinv (match tr with Some t => observe_trace st1 t | None => st1 end)).
  { destruct tr; [apply cinv_observe; assumption|assumption]. }
  assert (Es2 : cs_spans (match tr with Some t => observe_trace st1 t | None => st1 end) = cs_spans st) by (destruct tr; exact Es).
  assert (Hc' : forall j, span_from_ctx c = Some j -> (j < length (cs_spans (match tr with Some t => observe_trace st1 t | None => st1 end)))%nat).
  { intros j Hj. rewrite Es2, <- Es. apply Hc, Hj. }
  destruct (new_span_cinv _ _ _ _ _ _ _ _ _ E2 H2 Hc' Htr' (world_ok_same _ _ _ Es2 Hw)) as [H3 Hc2].
  cbn. apply assign_cinv; assumption.
Qed.
Lemma scope_task_cinv st cell p args found w : cinv st -> world_ok st w -> cinv (fst (scope_task st cell p args found w)).
Proof.
  intros H Hw. unfold scope_task. destruct (cs_tasks st !! cell) as [fv|]; [|exact H].
  destruct (clean_ctx st p) as [st1 c] eqn:E1.
  destruct (clean_cinv _ _ _ _ H E1) as (H1 & Hc & _ & Es & _). destruct (_ && _); [exact H1|].
  destruct (new_span _ c _ None None w) as [[st2 c'] i] eqn:E2.
  destruct (new_span_cinv _ _ _ _ _ _ _ _ _ E2 (cinv_tasks _ _ H1) Hc I (world_ok_same _ _ _ Es Hw)) as [H2 Hc2].
  cbn. apply assign_cinv; assumption.
Qed.
Lemma call_task_cinv st t p args found w : cinv st -> world_ok st w -> cinv (fst (call_task st t p args found w)).
Proof. destruct t; [apply func_task_cinv|apply reset_trace_cinv|apply scope_task_cinv]. Qed.

Lemma cstep_cinv st o : cinv st -> op_ok st o -> cinv (cstep st o).
Proof.
  intros H Ho.
  assert (Hfrom : forall x y g, (forall c, span_from_ctx (g c) = span_from_ctx c \/ span_from_ctx (g c) = None) -> cinv (from_var st x y g)).
  { intros x y g Hg. unfold from_var. destruct (cs_vars st !! y) as [c|] eqn:E; [|exact H].
    apply cinv_set_var; [exact H|]. intros i Hi. destruct (Hg c) as [E'|E']; rewrite E' in Hi; [|discriminate Hi].
    apply (C2 _ H _ _ _ E Hi). }
  destruct o as [t p args found w|f p pid tr w|t found w| | |x|x|x y|x y k v|x y|x y]; cbn [cstep op_ok] in *.
  - apply call_task_cinv; assumption.
  - apply remote_trace_cinv; tauto.
  - unfold task_func. pose proof (call_task_cinv st t PSecret [AKey; AOut] found w H Ho) as Hk.
    destruct (call_task st t PSecret [AKey; AOut] found w) as [st' r]. exact Hk.
  - apply cinv_tasks, H.
  - apply cinv_new_trace, H.
  - apply cinv_set_var; [exact H|discriminate].
  - destruct H as [H1 H2 H3 H4]. constructor; cbn; try assumption. intros y c i Hy.
    apply lookup_delete_Some in Hy as [_ Hy]. apply (H2 _ _ _ Hy).
  - apply Hfrom. auto.
  - apply Hfrom. intros c. left. rewrite !span_of_value. reflexivity.
  - apply Hfrom. intros c. left. rewrite !span_of_value. reflexivity.
  - apply Hfrom. intros c. right. reflexivity.
Qed.
Lemma crun_snoc ops o : crun (ops ++ [o]) = cstep (crun ops) o.
Proof. unfold crun. rewrite fold_left_app. reflexivity. Qed.
Lemma program_app ops o : program (ops ++ [o]) -> program ops /\ op_ok (crun ops) o.
Proof.
  intros H. split.
  - intros pre o' post E. apply (H pre o' (post ++ [o])). rewrite E, <- app_assoc. reflexivity.
  - apply (H ops o []). reflexivity.
Qed.
Lemma crun_cinv ops : program ops -> cinv (crun ops).
Proof.
  induction ops as [|o ops IH] using rev_ind; intros H; [apply cinv_new|].
  apply program_app in H as [H Ho]. rewrite crun_snoc. apply cstep_cinv; [apply IH, H|exact Ho].
Qed.

(** ** C24 *)
Lemma var_cleaned st x st1 c : clean_ctx st (PVar x) = (st1, c) ->
  span_from_ctx c = var_span st x /\ (forall y, y <> x -> cs_vars st1 !! y = cs_vars st !! y).
Proof.
  unfold var_span. cbn. destruct (cs_vars st !! x) as [cx|]; intros E; injection E as <- <-.
  - auto.
  - split; [reflexivity|]. intros y Hy. cbn. rewrite lookup_insert_ne by congruence. reflexivity.
Qed.

Lemma lookup_end {A} (l : list A) x : (l ++ [x]) !! length l = Some x.
Proof. rewrite lookup_app_r by lia. rewrite Nat.sub_diag. reflexivity. Qed.

Lemma fresh_now st : cinv st -> fresh_trace st (cs_traces st).
Proof.
  intros H. split.
  - intros Hi. apply (C3 _ H) in Hi. lia.
  - intros i r Hi. apply (C4 _ H) in Hi. lia.
Qed.

Lemma task_with_span ops f x args w p st' res :
  program ops -> var_span (crun ops) x = Some p ->
  func_task (crun ops) f (PVar x) (map AOther args) w = (st', res) ->
  exists r rp, res = RExit (length (cs_spans (crun ops))) /\
    cs_spans st' = cs_spans (crun ops) ++ [r] /\ cs_spans (crun ops) !! p = Some rp /\
    sr_f r = f /\ sr_parent r = Some p /\ sr_trace r = sr_trace rp /\
    parent_id st' (length (cs_spans (crun ops))) = Some (sr_id rp) /\
    cs_observed st' = cs_observed (crun ops) /\ cs_traces st' = cs_traces (crun ops).
Proof.
  intros Hp Hx E. pose proof (crun_cinv _ Hp) as Hinv. set (st := crun ops) in *. unfold func_task in E.
  destruct (clean_ctx st (PVar x)) as [st1 c] eqn:E1. destruct (var_cleaned _ _ _ _ E1) as [Hc _].
  destruct (clean_cinv _ _ _ _ Hinv E1) as (_ & Hlt & Et & Es & Eo & _).
  cbn [is_secret andb] in E. rewrite new_span_eq in E. rewrite Hc, Hx in E. cbn in E.
  apply pair_equal_spec in E as [<- <-]. specialize (Hlt p (eq_trans Hc Hx)).
  rewrite Es in *. destruct (lookup_lt_is_Some_2 _ _ Hlt) as [rp Hrp].
  eexists _, rp. split; [reflexivity|]. split; [cbn; rewrite Es; reflexivity|]. split; [exact Hrp|].
  split; [reflexivity|]. split; [reflexivity|]. split; [unfold span_trace; rewrite Es, Hrp; reflexivity|].
  split; [|split; assumption]. unfold parent_id. cbn. rewrite Es, lookup_end. cbn.
  rewrite (lookup_app_l_Some _ _ _ _ Hrp). reflexivity.
Qed.

Lemma ptr_cleaned st p st1 c : cinv st -> clean_ctx st (ptr p) = (st1, c) -> span_from_ctx c = ptr_span st p.
Proof.
  intros H. destruct p as [x|]; cbn [ptr ptr_span].
  - intros E. apply (var_cleaned _ _ _ _ E).
  - cbn. intros E. injection E as <- <-. rewrite (C1 _ H). reflexivity.
Qed.

Lemma task_without_span ops f p args w st' res :
  program ops -> ptr_span (crun ops) p = None ->
  func_task (crun ops) f (ptr p) (map AOther args) w = (st', res) ->
  exists r, res = RExit (length (cs_spans (crun ops))) /\
    cs_spans st' = cs_spans (crun ops) ++ [r] /\
    sr_f r = f /\ sr_parent r = None /\ parent_id st' (length (cs_spans (crun ops))) = None /\
    fresh_trace (crun ops) (sr_trace r) /\ cs_observed st' = cs_observed (crun ops) ++ [sr_trace r].
Proof.
  intros Hp Hx E. pose proof (crun_cinv _ Hp) as Hinv. set (st := crun ops) in *. unfold func_task in E.
  destruct (clean_ctx st (ptr p)) as [st1 c] eqn:E1. pose proof (ptr_cleaned _ _ _ _ Hinv E1) as Hc.
  destruct (clean_cinv _ _ _ _ Hinv E1) as (_ & _ & Et & Es & Eo & _).
  assert (Esec : is_secret (ptr p) = false) by (destruct p; reflexivity). rewrite Esec in E.
  cbn [andb] in E. rewrite new_span_eq in E. rewrite Hc, Hx in E. cbn -[assign] in E.
  apply pair_equal_spec in E as [<- <-]. rewrite Es.
  eexists. split; [reflexivity|]. split; [destruct p; cbn; rewrite Es; reflexivity|].
  split; [reflexivity|]. split; [reflexivity|].
  split; [destruct p; unfold parent_id; cbn; rewrite Es, lookup_end; reflexivity|].
  cbn [sr_trace]. rewrite Et. split; [apply fresh_now, Hinv|]. destruct p; cbn; rewrite Eo; reflexivity.
Qed.

Lemma reset_spec ops f p args w st' res :
  program ops ->
  reset_trace (crun ops) f (ptr p) (map AOther args) w = (st', res) ->
  exists r, res = RExit (length (cs_spans (crun ops))) /\
    cs_spans st' = cs_spans (crun ops) ++ [r] /\
    sr_f r = f /\ sr_parent r = None /\ parent_id st' (length (cs_spans (crun ops))) = None /\
    fresh_trace (crun ops) (sr_trace r) /\ cs_observed st' = cs_observed (crun ops) ++ [sr_trace r].
Proof.
  intros Hp E. pose proof (crun_cinv _ Hp) as Hinv. set (st := crun ops) in *. unfold reset_trace in E.
  destruct (clean_ctx st (ptr p)) as [st1 c] eqn:E1.
  destruct (clean_cinv _ _ _ _ Hinv E1) as (_ & _ & Et & Es & Eo & _).
  assert (Esec : is_secret (ptr p) = false) by (destruct p; reflexivity). rewrite Esec in E.
  cbn [andb] in E. rewrite new_span_eq in E. cbn -[assign] in E.
  apply pair_equal_spec in E as [<- <-]. rewrite Es.
  eexists. split; [reflexivity|]. split; [destruct p; cbn; rewrite Es; reflexivity|].
  split; [reflexivity|]. split; [reflexivity|].
  split; [destruct p; unfold parent_id; cbn; rewrite Es, lookup_end; reflexivity|].
  cbn [sr_trace]. rewrite Et. split; [apply fresh_now, Hinv|]. destruct p; cbn; rewrite Eo; reflexivity.
Qed.

Lemma remote_spec ops f p pid tr w st' res :
  program ops -> match tr with Some t => (t < cs_traces (crun ops))%nat | None => True end ->
  remote_trace (crun ops) f (ptr p) pid tr w = (st', res) ->
  exists r, res = RExit (length (cs_spans (crun ops))) /\
    cs_spans st' = cs_spans (crun ops) ++ [r] /\
    sr_f r = f /\ sr_parent r = None /\ parent_id st' (length (cs_spans (crun ops))) = Some pid /\
    match tr, ptr_span (crun ops) p with
    | Some t, _ => sr_trace r = t /\ cs_observed st' = cs_observed (crun ops) ++ [t]
    | None, Some q => (exists rq, cs_spans (crun ops) !! q = Some rq /\ sr_trace r = sr_trace rq) /\
                      cs_observed st' = cs_observed (crun ops)
    | None, None => fresh_trace (crun ops) (sr_trace r) /\ cs_observed st' = cs_observed (crun ops) ++ [sr_trace r]
    end.
Proof.
  intros Hp Htr E. pose proof (crun_cinv _ Hp) as Hinv. set (st := crun ops) in *. unfold remote_trace in E.
  destruct (clean_ctx st (ptr p)) as [st1 c] eqn:E1. pose proof (ptr_cleaned _ _ _ _ Hinv E1) as Hc.
  destruct (clean_cinv _ _ _ _ Hinv E1) as (_ & Hlt & Et & Es & Eo & _).
  rewrite new_span_eq in E.
  assert (Es2 : cs_spans (match tr with Some t => observe_trace st1 t | None => st1 end) = cs_spans st) by (destruct tr; exact Es).
  rewrite Es2 in E. cbn -[assign] in E.
  match type of E with context [add_span _ ?r0] => exists r0 end.
  apply pair_equal_spec in E as [<- <-]. split; [reflexivity|].
  split; [destruct tr as [t|], p as [x|], (span_from_ctx c); cbn; rewrite Es; reflexivity|].
  split; [reflexivity|]. split; [reflexivity|].
  split; [destruct tr as [t|], p as [x|], (span_from_ctx c); unfold parent_id; cbn; rewrite Es, lookup_end; reflexivity|].
  cbn [sr_trace]. destruct tr as [t|].
  - split; [reflexivity|]. destruct p; cbn; rewrite Eo; reflexivity.
  - rewrite Hc. destruct (ptr_span st p) as [q|] eqn:Eq.
    + split; [|destruct p; cbn; assumption]. specialize (Hlt q Hc). rewrite Es in Hlt.
      destruct (lookup_lt_is_Some_2 _ _ Hlt) as [rq Hq]. exists rq. split; [exact Hq|].
      unfold span_trace. rewrite Es, Hq. reflexivity.
    + rewrite Et. split; [apply fresh_now, Hinv|]. destruct p; cbn; rewrite Eo; reflexivity.
Qed.

(** The context variable afterwards. *)
Lemma call_task_var ops t x args found w st' i :
  program ops ->
  call_task (crun ops) t (PVar x) (map AOther args) found w = (st', RExit i) ->
  (exists c, cs_vars st' !! x = Some (w_obs w (CSpan i c))) /\ forall y, y <> x -> cs_vars st' !! y = cs_vars (crun ops) !! y.
Proof.
  intros Hp E. set (st := crun ops) in *.
  assert (Hgen : forall st1 c st2 f tr, clean_ctx st (PVar x) = (st1, c) -> cs_vars st2 = cs_vars st1 ->
            (let '(st3, c', i') := new_span st2 c f tr None w in (assign st3 (PVar x) c', RExit i')) = (st', RExit i) ->
            (exists c, cs_vars st' !! x = Some (w_obs w (CSpan i c))) /\ forall y, y <> x -> cs_vars st' !! y = cs_vars st !! y).
  { intros st1 c st2 f tr E1 Ev E2. rewrite new_span_eq in E2. cbn in E2.
    apply pair_equal_spec in E2 as [<- E2]. injection E2 as <-. cbn. split.
    - rewrite lookup_insert. eauto.
    - intros y Hy. rewrite lookup_insert_ne by congruence.
      assert (E9 : cs_vars (match tr with Some _ => st2 | None => match span_from_ctx c with Some _ => st2 | None => observe_trace (new_trace st2) (cs_traces st2) end end) = cs_vars st2).
      { destruct tr; [reflexivity|]. destruct (span_from_ctx c); reflexivity. }
      rewrite E9, Ev. apply (var_cleaned _ _ _ _ E1), Hy. }
  destruct t as [f|f|cell]; cbn [call_task] in E.
  - unfold func_task in E. destruct (clean_ctx st (PVar x)) as [st1 c] eqn:E1. cbn [is_secret andb] in E.
    eapply Hgen; [reflexivity| |exact E]. reflexivity.
  - unfold reset_trace in E. destruct (clean_ctx st (PVar x)) as [st1 c] eqn:E1. cbn [is_secret andb] in E.
    eapply Hgen; [reflexivity| |exact E]. reflexivity.
  - unfold scope_task in E. destruct (cs_tasks st !! cell) as [fv|]; [|discriminate E].
    destruct (clean_ctx st (PVar x)) as [st1 c] eqn:E1. cbn [is_secret andb] in E.
    eapply Hgen; [reflexivity| |exact E]. reflexivity.
Qed.

Lemma call_task_nil ops t args found w st' res :
  program ops ->
  call_task (crun ops) t PNil (map AOther args) found w = (st', res) ->
  cs_vars st' = cs_vars (crun ops) /\ cs_unparented st' = CBackground.
Proof.
  intros Hp E. pose proof (crun_cinv _ Hp) as Hinv. set (st := crun ops) in *.
  assert (Hgen : forall st2 f tr, cs_vars st2 = cs_vars st -> cs_unparented st2 = CBackground ->
            (let '(st3, c', i') := new_span st2 (cs_unparented st) f tr None w in (assign st3 PNil c', RExit i')) = (st', res) ->
            cs_vars st' = cs_vars st /\ cs_unparented st' = CBackground).
  { intros st2 f tr E1 E2 E3. rewrite new_span_eq in E3. cbn in E3. apply pair_equal_spec in E3 as [<- _]. cbn.
    destruct tr; [cbn; auto|]. destruct (span_from_ctx _); cbn; auto. }
  destruct t as [f|f|cell]; cbn [call_task] in E.
  - unfold func_task in E. cbn [clean_ctx is_secret andb] in E. eapply Hgen; [reflexivity|apply Hinv|exact E].
  - unfold reset_trace in E. cbn [clean_ctx is_secret andb] in E. eapply Hgen; [| |exact E]; [reflexivity|apply Hinv].
  - unfold scope_task in E. destruct (cs_tasks st !! cell) as [fv|].
    + cbn [clean_ctx is_secret andb] in E. eapply Hgen; [| |exact E]; [reflexivity|apply Hinv].
    + apply pair_equal_spec in E as [<- _]. split; [reflexivity|apply Hinv].
Qed.

(** Scope.Task's closure behaves like Func.Task of the Func it resolves to. *)
Lemma scope_task_eq st cell p args found w fv :
  cs_tasks st !! cell = Some fv -> is_secret p = false ->
  let f := match fv with Some f => f | None => found end in
  let '(st', res) := scope_task st cell p args found w in
  let '(st'', res') := func_task st f p args w in
  res = res' /\ cs_spans st' = cs_spans st'' /\ cs_traces st' = cs_traces st'' /\
  cs_observed st' = cs_observed st'' /\ cs_unparented st' = cs_unparented st'' /\ cs_vars st' = cs_vars st''.
Proof.
  intros Hc Hs. cbn. unfold scope_task, func_task. rewrite Hc. destruct (clean_ctx st p) as [st1 c]. rewrite Hs. cbn [andb].
  rewrite !new_span_eq. destruct p; cbn; destruct (span_from_ctx c); cbn; repeat split; reflexivity.
Qed.

(** ** C53 *)
Lemma task_func_bound st t found w : (forall cell, t <> TScope cell) ->
  task_func st t found w = (st, match t with TFunc f | TReset f => Some f | TScope _ => None end).
Proof. intros Ht. destruct t as [f|f|cell]; [reflexivity|reflexivity|]. exfalso. eapply Ht. reflexivity. Qed.
Lemma task_func_scope st cell found w fv : cs_tasks st !! cell = Some fv ->
  task_func st (TScope cell) found w = (st, fv).
Proof. intros H. unfold task_func, call_task, scope_task. rewrite H. reflexivity. Qed.
Lemma task_func_state st t found w : fst (task_func st t found w) = st.
Proof.
  destruct t as [f|f|cell]; try reflexivity. destruct (cs_tasks st !! cell) as [fv|] eqn:E.
  - rewrite (task_func_scope _ _ _ _ _ E). reflexivity.
  - unfold task_func, call_task, scope_task. rewrite E. reflexivity.
Qed.

(** Tasks keep their Func. *)
Lemma cell_kept st o cell f : cs_tasks st !! cell = Some (Some f) -> cs_tasks (cstep st o) !! cell = Some (Some f).
Proof.
  intros H. assert (Hcl : forall p, cs_tasks (fst (clean_ctx st p)) = cs_tasks st).
  { intros [|x|]; cbn; try reflexivity. destruct (cs_vars st !! x); reflexivity. }
  assert (Has : forall st p c, cs_tasks (assign st p c) = cs_tasks st) by (intros ? [] ?; reflexivity).
  assert (Hns : forall st c f tr pid w, cs_tasks (fst (fst (new_span st c f tr pid w))) = cs_tasks st).
  { intros. rewrite new_span_eq. cbn. destruct tr; [reflexivity|]. destruct (span_from_ctx _); reflexivity. }
  assert (Hfv : forall x y g, cs_tasks (from_var st x y g) = cs_tasks st).
  { intros x y g. unfold from_var. destruct (cs_vars st !! y); reflexivity. }
  destruct o as [t p args found w|f' p pid tr w|t found w| | |x|x|x y|x y k v|x y|x y]; cbn [cstep]; rewrite ?Hfv; try exact H.
  - destruct t as [g|g|cell']; cbn [call_task].
    + unfold func_task. specialize (Hcl (ptr p)). destruct (clean_ctx st (ptr p)) as [st1 c]. cbn in Hcl.
      destruct (_ && _); [cbn; rewrite Hcl; exact H|]. specialize (Hns st1 c g None None w).
      destruct (new_span st1 c g None None w) as [[st2 c'] i]. cbn in Hns |- *. rewrite Has, Hns, Hcl. exact H.
    + unfold reset_trace. specialize (Hcl (ptr p)). destruct (clean_ctx st (ptr p)) as [st1 c]. cbn in Hcl.
      destruct (_ && _); [cbn; rewrite Hcl; exact H|]. specialize (Hns (observe_trace (new_trace st1) (cs_traces st1)) c g (Some (cs_traces st1)) None w).
      destruct (new_span (observe_trace (new_trace st1) (cs_traces st1)) c g (Some (cs_traces st1)) None w) as [[st2 c'] i]. cbn in Hns |- *. rewrite Has, Hns, Hcl. exact H.
    + unfold scope_task. destruct (cs_tasks st !! cell') as [fv|] eqn:Ec; [|exact H].
      specialize (Hcl (ptr p)). destruct (clean_ctx st (ptr p)) as [st1 c]. cbn in Hcl.
      destruct (_ && _); [cbn; rewrite Hcl; exact H|].
      match goal with |- context [new_span ?s c ?g None None w] => specialize (Hns s c g None None w); destruct (new_span s c g None None w) as [[st2 c'] i] end.
      cbn in Hns |- *. rewrite Has, Hns, Hcl. destruct (decide (cell = cell')) as [<-|Hne].
      * rewrite list_lookup_insert by (eapply lookup_lt_Some; exact Ec). assert (fv = Some f) by congruence. subst. reflexivity.
      * rewrite list_lookup_insert_ne by congruence. exact H.
  - unfold remote_trace. specialize (Hcl (ptr p)). destruct (clean_ctx st (ptr p)) as [st1 c]. cbn in Hcl.
    match goal with |- context [new_span ?s c ?g tr ?q w] => specialize (Hns s c g tr q w); destruct (new_span s c g tr q w) as [[st2 c'] i] end.
    cbn in Hns |- *. rewrite Has, Hns. destruct tr; cbn; rewrite Hcl; exact H.
  - rewrite task_func_state. exact H.
  - cbn. rewrite (lookup_app_l_Some _ _ _ _ H). reflexivity.
Qed.

Lemma cell_set st cell p args found w st' i :
  call_task st (TScope cell) (ptr p) (map AOther args) found w = (st', RExit i) ->
  exists r, cs_spans st' !! i = Some r /\ cs_tasks st' !! cell = Some (Some (sr_f r)).
Proof.
  cbn [call_task]. unfold scope_task. destruct (cs_tasks st !! cell) as [fv|] eqn:Ec; [|discriminate].
  assert (Hcl : cs_tasks (fst (clean_ctx st (ptr p))) = cs_tasks st).
  { destruct p as [x|]; cbn; try reflexivity. destruct (cs_vars st !! x); reflexivity. }
  destruct (clean_ctx st (ptr p)) as [st1 c]. cbn in Hcl.
  assert (Esec : is_secret (ptr p) = false) by (destruct p; reflexivity). rewrite Esec. cbn [andb].
  rewrite new_span_eq. intros E. match type of E with context [add_span _ ?r0] => exists r0 end.
  apply pair_equal_spec in E as [<- E]. injection E as <-. split.
  - destruct p as [x|], (span_from_ctx c); cbn; apply lookup_end.
  - destruct p as [x|], (span_from_ctx c); cbn; rewrite Hcl; apply list_lookup_insert; eapply lookup_lt_Some; exact Ec.
Qed.

Lemma span_kept st o i r : cs_spans st !! i = Some r -> cs_spans (cstep st o) !! i = Some r.
Proof.
  intros H. assert (Hcl : forall p, cs_spans (fst (clean_ctx st p)) = cs_spans st).
  { intros [|x|]; cbn; try reflexivity. destruct (cs_vars st !! x); reflexivity. }
  assert (Has : forall st p c, cs_spans (assign st p c) = cs_spans st) by (intros ? [] ?; reflexivity).
  assert (Hns : forall st c f tr pid w, cs_spans st !! i = Some r -> cs_spans (fst (fst (new_span st c f tr pid w))) !! i = Some r).
  { intros. rewrite new_span_eq. destruct tr; [cbn; apply lookup_app_l_Some; assumption|].
    destruct (span_from_ctx _); cbn; apply lookup_app_l_Some; assumption. }
  assert (Hfv : forall x y g, cs_spans (from_var st x y g) = cs_spans st).
  { intros x y g. unfold from_var. destruct (cs_vars st !! y); reflexivity. }
  destruct o as [t p args found w|f' p pid tr w|t found w| | |x|x|x y|x y k v|x y|x y]; cbn [cstep]; rewrite ?Hfv; try exact H.
  - destruct t as [g|g|cell']; cbn [call_task].
    + unfold func_task. specialize (Hcl (ptr p)). destruct (clean_ctx st (ptr p)) as [st1 c]. cbn in Hcl.
      destruct (_ && _); [cbn; rewrite Hcl; exact H|]. specialize (Hns st1 c g None None w).
      destruct (new_span st1 c g None None w) as [[st2 c'] j]. cbn in Hns |- *. rewrite Has. apply Hns. rewrite Hcl. exact H.
    + unfold reset_trace. specialize (Hcl (ptr p)). destruct (clean_ctx st (ptr p)) as [st1 c]. cbn in Hcl.
      destruct (_ && _); [cbn; rewrite Hcl; exact H|]. specialize (Hns (observe_trace (new_trace st1) (cs_traces st1)) c g (Some (cs_traces st1)) None w).
      destruct (new_span (observe_trace (new_trace st1) (cs_traces st1)) c g (Some (cs_traces st1)) None w) as [[st2 c'] j]. cbn in Hns |- *. rewrite Has. apply Hns. rewrite Hcl. exact H.
    + unfold scope_task. destruct (cs_tasks st !! cell') as [fv|] eqn:Ec; [|exact H].
      specialize (Hcl (ptr p)). destruct (clean_ctx st (ptr p)) as [st1 c]. cbn in Hcl.
      destruct (_ && _); [cbn; rewrite Hcl; exact H|].
      match goal with |- context [new_span ?s c ?g None None w] => specialize (Hns s c g None None w); destruct (new_span s c g None None w) as [[st2 c'] j] end.
      cbn in Hns |- *. rewrite Has. apply Hns. rewrite Hcl. exact H.
  - unfold remote_trace. specialize (Hcl (ptr p)). destruct (clean_ctx st (ptr p)) as [st1 c]. cbn in Hcl.
    match goal with |- context [new_span ?s c ?g tr ?q w] => specialize (Hns s c g tr q w); destruct (new_span s c g tr q w) as [[st2 c'] j] end.
    cbn in Hns |- *. rewrite Has. apply Hns. destruct tr; cbn; rewrite Hcl; exact H.
  - rewrite task_func_state. exact H.
Qed.

Lemma crun_app ops1 ops2 : crun (ops1 ++ ops2) = fold_left cstep ops2 (crun ops1).
Proof. unfold crun. apply fold_left_app. Qed.
Lemma fold_kept ops st cell f i r :
  cs_tasks st !! cell = Some (Some f) -> cs_spans st !! i = Some r ->
  cs_tasks (fold_left cstep ops st) !! cell = Some (Some f) /\ cs_spans (fold_left cstep ops st) !! i = Some r.
Proof.
  revert st. induction ops as [|o ops IH]; intros st H1 H2; [auto|]. cbn. apply IH; [apply cell_kept, H1|apply span_kept, H2].
Qed.

Lemma task_func_after pre cell p args found w st1 i post found' w' :
  call_task (crun pre) (TScope cell) (ptr p) (map AOther args) found w = (st1, RExit i) ->
  exists r, cs_spans (crun (pre ++ OTask (TScope cell) p args found w :: post)) !! i = Some r /\
    task_func (crun (pre ++ OTask (TScope cell) p args found w :: post)) (TScope cell) found' w' =
      (crun (pre ++ OTask (TScope cell) p args found w :: post), Some (sr_f r)).
Proof.
  intros E. destruct (cell_set _ _ _ _ _ _ _ _ E) as (r & Hr & Hcell).
  rewrite crun_app. cbn [fold_left cstep]. rewrite E. cbn [fst].
  destruct (fold_kept post _ _ _ _ _ Hcell Hr) as [H1 H2]. exists r. split; [exact H2|].
  apply task_func_scope. exact H1.
Qed.
