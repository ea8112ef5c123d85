(** C98: statistics and spans of the same calls agree. *)
From Verif Require Import Base BaseProofs SpecBase ScopeSpec Conc FuncStatsModel FuncStatsSpec FuncStatsProofs FuncStatsProps SpanModel SpanSpec SpanProofs SpanProps TaskModel TaskSpec TaskProofs.
Local Open Scope Z_scope.

(** What whole calls do to the spans is what SpanModel has, and what they do to the statistics of each
    Func is what FuncStatsModel has, so everything proved of either holds of whole calls. *)
Theorem C98_refines :
  forall sched,
    (exists ss, as_spans sched ss /\ (lawful sched -> well_formed ss) /\ (calm sched -> quiet ss)) /\
    forall f, exists sf, as_stats f sched sf.
Proof.
  intros sched. split; [|intros f; apply stat_side]. destruct (span_side sched) as [ss E]. exists ss.
  split; [exact E|]. split; [apply (lawful_formed sched ss E)|]. intros Hc. apply (calm_quiet sched ss E Hc).
Qed.
Print Assumptions C98_refines.

(** AllSpans yields the spans whose bodies run, and Current of a Func is how many of them are its. *)
Theorem C98_current :
  forall sched info mord fuel, lawful sched -> calm sched -> any_order mord -> (length (threads (w_exec sched)) <= fuel)%nat ->
    let ids := all_spans info mord (w_spans (shared (w_exec sched))) fuel in
    NoDup ids /\ (forall i, i ∈ ids <-> exists t, threads (w_exec sched) !! i = Some t /\ body_runs t = true) /\
    forall f, fs_current (stats_after sched f) = Z.of_nat (length (List.filter (fun i => bool_decide (func_at sched i = Some f)) ids)).
Proof.
  intros sched info mord fuel Hl Hc Ho Hf ids. destruct (span_side sched) as [ss E]. destruct (calm_quiet sched ss E Hc) as [Q R].
  destruct (C20_all ss info mord (lawful_formed sched ss E Hl) Q Ho fuel) as [N M]; [rewrite E; cbn [threads]; rewrite map_length; exact Hf|].
  assert (X : all_spans info mord (spans_after ss) fuel = ids) by (unfold spans_after; rewrite E; reflexivity). rewrite X in N, M.
  assert (M' : forall i, i ∈ ids <-> exists t, threads (w_exec sched) !! i = Some t /\ body_runs t = true) by (intros i; rewrite M; apply R).
  split; [exact N|]. split; [exact M'|]. intros f. rewrite (current_calm sched f Hc). unfold how_many, calls_of. rewrite filter_both. f_equal.
  apply (count_numbers _ _ (threads (w_exec sched)) ids N).
  intros i. rewrite filter_In, <- elem_of_list_In, M', bool_decide_eq_true. unfold func_at. split.
  - intros ((t & Ht & B) & F). rewrite Ht in F. cbn in F. apply Some_inj in F. exists t. split; [exact Ht|]. rewrite B, F, Nat.eqb_refl. reflexivity.
  - intros (t & Ht & B). apply andb_true_iff in B as [F B]. apply Nat.eqb_eq in F. split; [exists t; split; assumption|]. rewrite Ht. cbn. rewrite F. reflexivity.
Qed.
Print Assumptions C98_current.

(** The numbers and durations of the calls of a Func that ended, by their outcome. *)
Theorem C98_ended :
  forall sched f, calm sched ->
    let s := stats_after sched f in
    let those c := List.filter (ended_with c) (calls_of f sched) in
    fs_panics s = Z.of_nat (length (those CPanic)) /\
    (forall e n, fs_errors s !! e = Some n <-> n = Z.of_nat (length (those (CError e))) /\ 0 < n) /\
    fs_success s ≡ₚ map (fun t => wc_dur (wt_call t)) (those CSuccess) /\
    fs_failure s ≡ₚ map (fun t => wc_dur (wt_call t)) (List.filter (fun t => is_over t && negb (bool_decide (outcome t = CSuccess))) (calls_of f sched)).
Proof.
  intros sched f Hc s those. destruct (stat_side f sched) as (sf & E & _). destruct (C17_counts sf) as (P & Er & Su & Fa). unfold state_after in *. rewrite E in *. cbn [shared] in *. fold s in P, Er, Su, Fa.
  pose proof (ends_calm sched f Hc) as En. fold s in En.
  assert (D : forall g : class -> bool, durations g (ends s) ≡ₚ map (fun t => wc_dur (wt_call t)) (List.filter (fun t => is_over t && g (outcome t)) (calls_of f sched))).
  { intros g. unfold durations. rewrite (filter_Permutation' _ _ _ En). rewrite <- filter_both. generalize (List.filter is_over (calls_of f sched)) as l.
    induction l as [|t l IH]; [reflexivity|]. cbn. destruct (g (outcome t)); cbn; [constructor|]; exact IH. }
  assert (C : forall c, number_of c (ends s) = Z.of_nat (length (those c))).
  { intros c. unfold number_of. f_equal. pose proof (Permutation_length (D (fun c' => bool_decide (c' = c)))) as L. unfold durations in L. rewrite !map_length in L. exact L. }
  split_and!.
  - rewrite P. apply C.
  - intros e n. rewrite Er, C. reflexivity.
  - rewrite Su. apply (D (fun c => bool_decide (c = CSuccess))).
  - rewrite Fa. apply (D (fun c => negb (bool_decide (c = CSuccess)))).
Qed.
Print Assumptions C98_ended.

(** Parents of a Func: the Funcs of the parents of its spans, and nil if it has spans without. *)
Theorem C98_parents :
  forall sched f ord, lawful sched -> calm sched -> any_order ord ->
    let l := parents_now ord (stats_after sched f) in
    NoDup l /\ forall p, p ∈ l <-> exists i c, call_at sched i c /\ wc_func c = f /\
      match p with
      | Some g => exists j, sc_parent (wc_span c) = Some j /\ func_at sched j = Some g
      | None => sc_parent (wc_span c) = None
      end.
Proof.
  intros sched f ord Hl Hc Ho l. destruct (stat_side f sched) as (sf & E & Hn & _). set (n := length (threads (w_exec sched))).
  set (more := [Spawn (FParents ord); Run n; Run n]).
  assert (X : threads (f_exec (sf ++ more)) = map (its_part f) (threads (w_exec sched)) ++ [FThr (FParents ord) (F_done (FRParents l))]) by (apply parents_run; exact E).
  assert (Y : threads (f_exec (sf ++ more)) !! n = Some (FThr (FParents ord) (F_done (FRParents l)))).
  { rewrite X. rewrite lookup_app_r; rewrite map_length; [|lia]. unfold n. rewrite Nat.sub_diag. reflexivity. }
  split; [exact (C16_parents_distinct _ n ord l Ho Y)|].
  assert (G : forall p, p ∈ l <-> exists i c, call_at sched i c /\ wc_func c = f /\ wc_parent c = p).
  { intros p. split.
    - intros Hp. destruct (C16_parents_sound _ n ord l p Ho Y Hp) as (j & t & err & pk & d & Hj & Hcall). rewrite X in Hj. apply lookup_app_Some in Hj as [Hj|[_ Hj]].
      + rewrite list_lookup_fmap in Hj. destruct (threads (w_exec sched) !! j) as [u|] eqn:Hu; [|discriminate Hj]. apply Some_inj in Hj as <-. unfold its_part in Hcall.
        destruct (Nat.eqb (wc_func (wt_call u)) f) eqn:F; [|discriminate Hcall]. apply Nat.eqb_eq in F. destruct (threads_in_step sched j u Hu) as (_ & Fc & _). rewrite Fc in Hcall.
        exists j, (wt_call u). split; [exists u; split; [exact Hu|reflexivity]|]. split; [exact F|]. unfold w_fcall in Hcall. injection Hcall as Hq _ _ _. exact Hq.
      + destruct (j - _)%nat; [apply Some_inj in Hj as <-; discriminate Hcall|discriminate Hj].
    - intros (i & c & (u & Hu & Hcu) & Hf & Hq). subst c. destruct (calm_thread sched u Hc) as (F & S); [eapply elem_of_list_lookup_2, Hu|].
      apply (C16_parents_complete sf more i (wt_stat u) p (fst (w_outcome (wt_call u))) (snd (w_outcome (wt_call u))) (wc_dur (wt_call u)) n ord l Ho).
      + rewrite E. cbn [threads]. rewrite list_lookup_fmap, Hu. cbn. unfold its_part. rewrite Hf, Nat.eqb_refl. reflexivity.
      + rewrite F, <- Hq. reflexivity.
      + unfold started. destruct S as [(_ & _ & ->)|(_ & _ & r & ->)]; exact I.
      + intros v Hv. rewrite E in Hv. cbn [threads] in Hv. apply lookup_lt_Some in Hv. rewrite map_length in Hv. unfold n in Hv. lia.
      + exact Y. }
  intros p. rewrite G. split.
  - intros (i & c & Hi & Hf & Hq). exists i, c. split; [exact Hi|]. split; [exact Hf|]. subst p. destruct (Hl i c Hi) as [_ L]. destruct (sc_parent (wc_span c)) as [j|].
    + destruct L as (_ & c' & (u & Hu & <-) & ->). exists j. split; [reflexivity|]. unfold func_at. rewrite Hu. reflexivity.
    + rewrite L. reflexivity.
  - intros (i & c & Hi & Hf & Hq). exists i, c. split; [exact Hi|]. split; [exact Hf|]. destruct (Hl i c Hi) as [_ L]. destruct p as [g|].
    + destruct Hq as (j & Hj & Hg). rewrite Hj in L. destruct L as (_ & c' & (u & Hu & <-) & ->). unfold func_at in Hg. rewrite Hu in Hg. cbn in Hg. exact Hg.
    + rewrite Hq in L. exact L.
Qed.
Print Assumptions C98_parents.

(** Highwater: the most there ever were. *)
Theorem C98_highwater :
  forall sched f, calm sched ->
    (exists w, w `prefix_of` sched /\ fs_highwater (stats_after sched f) = fs_current (stats_after w f)) /\
    forall w, w `prefix_of` sched -> fs_current (stats_after w f) <= fs_highwater (stats_after sched f) /\
      (calm w -> how_many body_runs (calls_of f w) <= fs_highwater (stats_after sched f)).
Proof.
  intros sched f Hc. destruct (stat_side f sched) as (sf & E & Hn & Hp & Hw). destruct (C18_highwater sf Hn) as [(pre & post & E1 & E2) Hmax].
  unfold state_after in *. rewrite E in E2, Hmax. cbn [shared threads] in E2, Hmax. split.
  - destruct (Hp pre) as (w & Pw & Ew); [exists post; exact E1|]. exists w. split; [exact Pw|]. rewrite <- Ew. symmetry. exact E2.
  - assert (G : forall w, w `prefix_of` sched -> fs_current (stats_after w f) <= fs_highwater (stats_after sched f)).
    { intros w Pw. destruct (Hw w Pw) as (q & [more Eq] & Ew). rewrite <- Ew. apply (Hmax) with (post := more); [|exact Eq].
      intros i t Ht. rewrite list_lookup_fmap in Ht. destruct (threads (w_exec sched) !! i) as [u|] eqn:Hu; [|discriminate Ht]. apply Some_inj in Ht as <-. unfold its_part, half_started.
      destruct (Nat.eqb (wc_func (wt_call u)) f); [|intros []]. destruct (calm_thread sched u Hc) as (_ & S); [eapply elem_of_list_lookup_2, Hu|]. destruct S as [(_ & _ & ->)|(_ & _ & r & ->)]; intros []. }
    intros w Pw. split; [apply G, Pw|]. intros Hcw. rewrite <- (current_calm w f Hcw). apply G, Pw.
Qed.
Print Assumptions C98_highwater.

(** Span 0 of Func 1, below it span 1 of Func 2; span 2 of Func 2 has no parent and ended with an error. *)
Definition ex_call (f : nat) (p : option nat) (pf : parent) (e : option bytes) (d : Z) : wcall := WCall f (SCall p 0 UReturn (Some e) (fun l => l)) pf d.
Definition ex98 : list (action wcall) :=
  Spawn (ex_call 1 None None None 5) :: repeat (Run 0) 7 ++ Spawn (ex_call 2 (Some 0%nat) (Some 1%nat) None 6) :: repeat (Run 1) 7 ++
  Spawn (ex_call 2 None None (Some (B "E")) 7) :: repeat (Run 2) 20.
Example C98_example :
  lawful ex98 /\ calm ex98 /\
  all_spans (fun i => (B "f", Z.of_nat i)) (fun l => l) (w_spans (shared (w_exec ex98))) 3 = [0; 1]%nat /\
  fs_current (stats_after ex98 1) = 1 /\ fs_current (stats_after ex98 2) = 1 /\ fs_highwater (stats_after ex98 2) = 2 /\
  fs_errors (stats_after ex98 2) !! B "E" = Some 1 /\ fs_failure (stats_after ex98 2) = [7] /\
  parents_now (fun l => l) (stats_after ex98 1) = [None] /\ parents_now (fun l => l) (stats_after ex98 2) = [None; Some 1%nat].
Proof.
  split; [|split].
  - apply (lawful_of ex98 [ex_call 1 None None None 5; ex_call 2 (Some 0%nat) (Some 1%nat) None 6; ex_call 2 None None (Some (B "E")) 7]); [vm_compute; reflexivity|].
    intros i c H. destruct i as [|[|[|i]]]; [| | |discriminate H]; apply Some_inj in H; subst c; (split; [intros l; reflexivity|]); [reflexivity| |reflexivity].
    split; [lia|]. exists (ex_call 1 None None None 5). split; reflexivity.
  - apply calm_of. vm_compute. reflexivity.
  - split_and!; vm_compute; reflexivity.
Qed.

(** While a call is ending the two may disagree: its span is still there, but it does not count as
    current any more. *)
Theorem C98_moment_refuted :
  exists sched info, lawful sched /\ all_spans info (fun l => l) (w_spans (shared (w_exec sched))) 1 = [0%nat] /\ fs_current (stats_after sched 1) = 0.
Proof.
  exists (Spawn (ex_call 1 None None None 5) :: repeat (Run 0) 9), (fun i => (B "f", Z.of_nat i)). split; [|split; vm_compute; reflexivity].
  apply (lawful_of _ [ex_call 1 None None None 5]); [vm_compute; reflexivity|].
  intros i c H. destruct i as [|i]; [|discriminate H]. apply Some_inj in H. subst c. split; [intros l; reflexivity|reflexivity].
Qed.
Print Assumptions C98_moment_refuted.
