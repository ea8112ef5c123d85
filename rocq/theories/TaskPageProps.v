(** C98 on the pages: /ps/text and /funcs/text, /ps/json and /funcs/json tell the same of the calls in progress. *)
From Verif Require Import Base SpecBase ScopeSpec Conc PresentModel ArgsModel ReportModel ReportSpec JsonModel JsonSpec ReportProofs4 PsModel PsSpec PsProps FuncPageModel FuncPageSpec FuncStatsModel FuncStatsProps SpanModel SpanSpec TaskModel TaskSpec TaskProofs TaskProps FuncStatsSpec.
Local Open Scope Z_scope.

Local Arguments B : simpl never.
(** The calls in flight of a Func read at this moment are as many as its spans among the running ones. *)
Lemma count_shown sched f sf (mord : list nat -> list nat) fuel (ids : list nat) : lawful sched -> calm sched -> any_order mord -> (length (threads (w_exec sched)) <= fuel)%nat -> as_stats f sched sf ->
  NoDup ids -> (forall i, i ∈ ids <-> exists t, threads (w_exec sched) !! i = Some t /\ body_runs t = true) ->
  Z.of_nat (length (List.filter in_flight (threads (f_exec sf)))) = Z.of_nat (length (List.filter (fun i => bool_decide (func_at sched i = Some f)) ids)).
Proof.
  intros Hl Hc Ho Hf [Er [Hr _]] N M'. destruct (C18_current _ Hr) as [Cu _]. rewrite <- Cu. unfold state_after. rewrite Er. cbn [shared].
  destruct (C98_current sched (fun _ => (B "", 0)) mord fuel Hl Hc Ho Hf) as (N2 & M2 & ->). f_equal.
  apply Permutation_length. apply filter_Permutation'. apply NoDup_Permutation; [exact N2|exact N|]. intros i. rewrite M', M2. reflexivity.
Qed.
(** [ids]: the spans that the lines of /ps/text are about, in their order.  The number shown as
    current for a Func on /funcs/text, if Current was read at this moment, is how many are its. *)
Theorem C98_pages :
  forall sched ss table short_del other about mord fuel faults w w',
    lawful sched -> calm sched -> as_spans sched ss -> any_order mord -> (length (threads (w_exec sched)) <= fuel)%nat ->
    (forall i, running ss i -> sound (about i) /\ unbroken table short_del other (about i)) ->
    ps_text table short_del other about mord (sp_exec ss) faults w fuel = (w', None) ->
    exists doc ls ids, sk_out w' = sk_out w ++ doc /\ read_spans_text doc = Some ls /\
      Forall2 (fun i l => exists d, line_of table short_del other about ss d i l) ids ls /\
      NoDup ids /\ (forall i, i ∈ ids <-> exists t, threads (w_exec sched) !! i = Some t /\ body_runs t = true) /\
      forall F R f fid id scope short sf e_at s_at f_at (r : freads F R) l c,
        as_stats f sched (fr_current r) -> no_reset sf -> entry_of fid id scope short sf e_at s_at f_at r l -> (B "current", c) ∈ tf_counts l ->
        c = Z.of_nat (length (List.filter (fun i => bool_decide (func_at sched i = Some f)) ids)).
Proof.
  intros sched ss table sd other about mord fuel faults w w' Hl Hc E Ho Hf Hs P. destruct (calm_quiet sched ss E Hc) as [Q Rn].
  assert (Hf' : (length (threads (sp_exec ss)) <= fuel)%nat) by (rewrite E; cbn [threads]; rewrite map_length; exact Hf).
  destruct (C96_text table sd other about mord ss fuel faults w w' (lawful_formed sched ss E Hl) Q Ho Hf' Hs P) as (doc & ls & O & D & _ & ids & [N M] & L).
  exists doc, ls, ids. split; [exact O|]. split; [exact D|]. split; [exact L|]. split; [exact N|].
  assert (M' : forall i, i ∈ ids <-> exists t, threads (w_exec sched) !! i = Some t /\ body_runs t = true) by (intros i; rewrite M; apply Rn). split; [exact M'|].
  intros F R f fid id scope short sf e_at s_at f_at r l c A Hn (_ & _ & _ & (c' & h & T & C) & _) Hin.
  destruct (C Hn) as [Ec _]. rewrite T in Hin.
  assert (c = c') as ->.
  { apply elem_of_cons in Hin as [X|Hin]; [apply pair_equal_spec in X as [_ X]; exact X|]. exfalso.
    repeat (apply elem_of_cons in Hin as [X|Hin]; [apply pair_equal_spec in X as [X _]; revert X; vm_compute; discriminate|]). apply elem_of_nil in Hin. exact Hin. }
  rewrite Ec. apply (count_shown sched f (fr_current r) mord fuel ids); assumption.
Qed.
Print Assumptions C98_pages.

(** The same for /ps/json and /funcs/json. *)
Theorem C98_pages_json :
  forall sched ss table short_del other about mord fuel short_bf faults w w',
    lawful sched -> calm sched -> as_spans sched ss -> any_order mord -> (length (threads (w_exec sched)) <= fuel)%nat ->
    (forall i, sound (about i)) ->
    ps_json table short_del other about mord (sp_exec ss) short_bf faults w fuel = (w', None) ->
    exists doc js ids, sk_out w' = sk_out w ++ doc /\ is_json doc (JArray js) /\
      Forall2 (PsSpec.object_of table short_del other about ss) ids js /\
      NoDup ids /\ (forall i, i ∈ ids <-> exists t, threads (w_exec sched) !! i = Some t /\ body_runs t = true) /\
      forall F R f fid id scope short sf e_at s_at f_at (r : freads F R) o,
        as_stats f sched (fr_current r) -> no_reset sf -> members_of fid id scope short sf e_at s_at f_at r o ->
        jf_current o = Z.of_nat (length (List.filter (fun i => bool_decide (func_at sched i = Some f)) ids)).
Proof.
  intros sched ss table sd other about mord fuel bf faults w w' Hl Hc E Ho Hf Hs P. destruct (calm_quiet sched ss E Hc) as [Q Rn].
  assert (Hf' : (length (threads (sp_exec ss)) <= fuel)%nat) by (rewrite E; cbn [threads]; rewrite map_length; exact Hf).
  destruct (C96_json table sd other about mord ss fuel bf faults w w' (lawful_formed sched ss E Hl) Q Ho Hf' Hs P) as (doc & js & O & D & ids & [N M] & L).
  exists doc, js, ids. split; [exact O|]. split; [exact D|]. split; [exact L|]. split; [exact N|].
  assert (M' : forall i, i ∈ ids <-> exists t, threads (w_exec sched) !! i = Some t /\ body_runs t = true) by (intros i; rewrite M; apply Rn). split; [exact M'|].
  intros F R f fid id scope short sf e_at s_at f_at r o A Hn (_ & _ & _ & _ & _ & _ & C & _). destruct (C Hn) as [-> _].
  apply (count_shown sched f (fr_current r) mord fuel ids); assumption.
Qed.
Print Assumptions C98_pages_json.

Lemma running_below sched ss n i : as_spans sched ss -> length (threads (w_exec sched)) = n -> running ss i -> (i < n)%nat.
Proof. intros E <- [c H]. apply lookup_lt_Some in H. rewrite E in H. cbn [threads] in H. rewrite map_length in H. exact H. Qed.
Lemma same_page (g : config spans sthread -> sink * option werr) sched ss text : as_spans sched ss ->
  snd (g (Cfg (w_spans (shared (w_exec sched))) (map wt_span (threads (w_exec sched))))) = None ->
  sk_out (fst (g (Cfg (w_spans (shared (w_exec sched))) (map wt_span (threads (w_exec sched)))))) = text ->
  exists w', g (sp_exec ss) = (w', None) /\ sk_out w' = text.
Proof. intros E. rewrite <- E. destruct (g (sp_exec ss)) as [w' e]. cbn. intros -> <-. exists w'. split; reflexivity. Qed.
Lemma stats_part f sched c : fs_current (stats_after sched f) = c -> exists sf, as_stats f sched sf /\ no_reset sf /\ fs_current (state_after sf) = c.
Proof. intros K. destruct (proj2 (C98_refines sched) f) as (sf & A). exists sf. split; [exact A|]. destruct A as (E & N & _). split; [exact N|]. unfold state_after. rewrite E. exact K. Qed.
(** The calls of C98_example: both functions have one call in progress and one line each.  The entry
    of Func 2 read then is met by C97 with the [sf] below, whose Current is the 1 shown. *)
Example C98_pages_example :
  lawful ex98 /\ calm ex98 /\ exists ss, as_spans ex98 ss /\
  (forall i, running ss i -> sound (ex_about i) /\ unbroken (fun _ => false) false (fun _ => []) (ex_about i)) /\
  (exists w', ps_text (fun _ => false) false (fun _ => []) ex_about (fun l => l) (sp_exec ss) (fun _ => None) (Sink [] 0) 3 = (w', None) /\
    sk_out w' = unlines [B "[0,7] p.f() (elapsed: 1s)"; B "  k: v"; B " [1,7] p.f() (elapsed: 1s)"; B "   k: v"; []]) /\
  exists sf, as_stats 2 ex98 sf /\ no_reset sf /\ fs_current (state_after sf) = 1.
Proof.
  split; [exact (proj1 C98_example)|]. split; [exact (proj1 (proj2 C98_example))|]. destruct (proj1 (C98_refines ex98)) as (ss & E & _). exists ss. split; [exact E|]. split; [|split].
  - intros i H. apply (running_below ex98 ss 3 i E) in H; [|vm_compute; reflexivity]. split; [apply ex_sound; lia|].
    assert (X : forall x, existsb (Ascii.eqb newline) x = false -> one_line x) by (intros y; apply lit_free).
    unfold unbroken. cbn. split_and!; try (apply X; reflexivity); [apply Forall_nil_2|]. apply Forall_cons_2; [split; apply X; reflexivity|apply Forall_nil_2].
  - apply (same_page (fun c => ps_text (fun _ => false) false (fun _ => []) ex_about (fun l => l) c (fun _ => None) (Sink [] 0) 3) ex98 ss _ E); vm_compute; reflexivity.
  - apply stats_part. vm_compute. reflexivity.
Qed.
Lemma ex_small_sound i : sound (ex_small i).
Proof. exact (proj1 C96_example_http i). Qed.
Example C98_pages_json_example :
  lawful ex98 /\ calm ex98 /\ (forall i, sound (ex_small i)) /\ exists ss, as_spans ex98 ss /\
  exists w', ps_json (fun _ => false) false (fun _ => []) ex_small (fun l => l) (sp_exec ss) false (fun _ => None) (Sink [] 0) 3 = (w', None) /\
    option_map (fun j => match j with JArray js => length js | _ => 0%nat end) (read_json (sk_out w')) = Some 2%nat.
Proof.
  split; [exact (proj1 C98_example)|]. split; [exact (proj1 (proj2 C98_example))|]. split; [exact ex_small_sound|]. destruct (proj1 (C98_refines ex98)) as (ss & E & _). exists ss. split; [exact E|].
  destruct (same_page (fun c => ps_json (fun _ => false) false (fun _ => []) ex_small (fun l => l) c false (fun _ => None) (Sink [] 0) 3) ex98 ss
    (sk_out (fst (ps_json (fun _ => false) false (fun _ => []) ex_small (fun l => l) (Cfg (w_spans (shared (w_exec ex98))) (map wt_span (threads (w_exec ex98)))) false (fun _ => None) (Sink [] 0) 3))) E)
    as (w' & H & T); [vm_compute; reflexivity|reflexivity|]. exists w'. split; [exact H|]. rewrite T. vm_compute. reflexivity.
Qed.
