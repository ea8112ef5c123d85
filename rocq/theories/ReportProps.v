(** C81, C82, C83: the DOT and text reports of spans and functions, with all their numbers, say
    what the spans and functions are. *)
From Verif Require Import Base PresentModel PresentSpec PresentProofs SvgModel SvgSpec ReportModel ReportSpec ReportProofs ReportProofs2 ReportProofs3 ReportProofs4.
Local Open Scope Z_scope.
Local Arguments B : simpl never.

(** *** C81: DOT *)
(** What SpansDot writes if nothing fails is a graph in the DOT language whose nodes are the spans,
    with labels that show their text, and whose edges lead from each span to its children. *)
Theorem C81_spans :
  forall faults s roots s',
    Forall (fun r => an_id (r_id r)) (flat_map below roots) -> report_spans_dot faults s roots = (s', None) ->
    exists doc l, sk_out s' = sk_out s ++ doc /\ read_dot doc = Some l /\
      Forall2 shows_text (map span_node (flat_map below roots)) (dot_nodes l) /\
      dot_edges l ≡ₚ flat_map span_edges (flat_map below roots).
Proof.
  intros faults s roots s' H E. pose proof (spans_dot_delivered faults s (map span_view roots)) as D. unfold report_spans_dot in E. rewrite E in D. destruct D as [_ ->].
  destruct (spans_dot_read roots H) as (l & L). eexists _, l. split; [reflexivity|exact L].
Qed.
Print Assumptions C81_spans.

(** Every edge joins two of the nodes, and different spans have different nodes. *)
Theorem C81_closed :
  forall faults s roots s' doc l,
    Forall (fun r => an_id (r_id r)) (flat_map below roots) -> report_spans_dot faults s roots = (s', None) ->
    sk_out s' = sk_out s ++ doc -> read_dot doc = Some l ->
    (forall a b, (a, b) ∈ dot_edges l -> a ∈ map fst (dot_nodes l) /\ b ∈ map fst (dot_nodes l)) /\
    (NoDup (map r_id (flat_map below roots)) -> NoDup (map fst (dot_nodes l))).
Proof.
  intros faults s roots s' doc l H E Hd Hl. destruct (C81_spans faults s roots s' H E) as (doc' & l' & Hd' & Hl' & Hn & He).
  assert (doc' = doc) by (rewrite Hd in Hd'; apply app_inv_head in Hd'; congruence). subst doc'. assert (l' = l) by congruence. subst l'.
  assert (N : map fst (dot_nodes l) = map (fun r => f_name (r_id r)) (flat_map below roots)) by exact (nodes_names roots (dot_nodes l) Hn).
  rewrite N. split.
  - intros a b Hab. rewrite He in Hab. apply elem_of_list_In, in_flat_map in Hab as (r & Hr & Hab). apply in_map_iff in Hab as (k & Hk & Hin).
    assert (Ea : a = f_name (r_id r)) by congruence. assert (Eb : b = f_name (r_id k)) by congruence. subst a b.
    split; apply elem_of_list_In, in_map_iff; [exists r; split; [reflexivity|exact Hr]|exists k; split; [reflexivity|exact (kid_below roots r k Hr Hin)]].
  - intros Hnd. rewrite <- (map_map r_id f_name). apply f_names_distinct; [|exact Hnd]. apply Forall_map. exact H.
Qed.
Print Assumptions C81_closed.

Theorem C81_funcs :
  forall faults s fs s',
    Forall (fun f => clear_counts f /\ ids_ok f) fs -> report_funcs_dot faults s fs = (s', None) ->
    exists doc l, sk_out s' = sk_out s ++ doc /\ read_dot doc = Some l /\
      Forall2 shows_text (flat_map func_nodes fs) (dot_nodes l) /\ dot_edges l = flat_map func_edges fs.
Proof.
  intros faults s fs s' H E. pose proof (funcs_dot_delivered faults s (map func_view fs)) as D. unfold report_funcs_dot in E. rewrite E in D. destruct D as [_ ->].
  destruct (funcs_dot_read fs H) as (l & L). eexists _, l. split; [reflexivity|exact L].
Qed.
Print Assumptions C81_funcs.

(** A failed Write is reported, so a report cut short is not taken for a graph. *)
Theorem C81_failed :
  forall faults s roots s' e, report_spans_dot faults s roots = (s', Some e) ->
    exists i n, e = EWrite (sk_calls s + i)%nat /\ faults (sk_calls s + i)%nat = Some n.
Proof.
  intros faults s roots s' e E. pose proof (spans_dot_delivered faults s (map span_view roots)) as D. unfold report_spans_dot in E. rewrite E in D.
  destruct D as (i & p & n & _ & He & Hf & _). exists i, n. split; assumption.
Qed.
Print Assumptions C81_failed.

Definition ex_leaf : rspan := RSpan 12 7 (B "p.g") [B """x -> y"""; B "3"] 1500000000 true [(B "key", B "a""b")] [].
Definition ex_root : rspan := RSpan 11 7 (B "p.f") [] 2000 false [] [ex_leaf].
Definition ex_dist : rdist := RDist [(B "0.00", 5); (B "1.00", 1000)] 10 20 5 1005.
Definition ex_func : rfunc := RFunc 3 (B "p.f") [None; Some 2] [(B "ERR", 4)] 1 2 3 0 ex_dist ex_dist.
Example C81_ex_spans :
  Forall (fun r => an_id (r_id r)) (flat_map below [ex_root]) /\ NoDup (map r_id (flat_map below [ex_root])) /\
  exists s' doc l, report_spans_dot (fun _ => None) (Sink [] 0) [ex_root] = (s', None) /\ sk_out s' = doc /\ read_dot doc = Some l /\
    map fst (dot_nodes l) = [B "f11"; B "f12"] /\ dot_edges l = [(B "f11", B "f12")] /\
    map (fun n => unlabel UText (default [] (snd <$> head (snd n)))) (dot_nodes l) =
      [Some (unlines [B "p.f()"; B "elapsed: 2" ++ utf8 181 ++ B "s"]);
       Some (unlines [B "p.g(""x -> y"", 3)"; B "elapsed: 1.5s"; B "orphaned"; B "key: a""b"])].
Proof.
  split; [|split].
  - repeat apply Forall_cons_2; try apply Forall_nil_2; unfold an_id; cbn; lia.
  - apply (bool_decide_unpack _). vm_compute. exact I.
  - eexists _, _, _. split; [vm_compute; reflexivity|]. split; [reflexivity|]. split; [vm_compute; reflexivity|]. vm_compute. auto.
Qed.
Example C81_ex_funcs :
  clear_counts ex_func /\ ids_ok ex_func /\
  exists s' l, report_funcs_dot (fun _ => None) (Sink [] 0) [ex_func] = (s', None) /\ read_dot (sk_out s') = Some l /\
    map fst (dot_nodes l) = [B "f3"; B "r3"] /\ dot_edges l = [(B "r3", B "f3"); (B "f2", B "f3")].
Proof.
  split; [|split].
  - unfold clear_counts, errors_sum. cbn. split; [repeat apply Forall_cons_2; [cbn; lia|apply Forall_nil_2]|lia].
  - unfold ids_ok, an_id. cbn. split; [lia|]. intros q Hq. repeat (apply elem_of_cons in Hq as [E|Hq]; [first [discriminate E|injection E as ->; lia]|]). inversion Hq.
  - eexists _, _. split; [vm_compute; reflexivity|]. vm_compute. auto.
Qed.

(** *** C82: SpansText *)
(** From SpansText one reads each span's ids, call, elapsed time, orphaned flag and annotations, in
    order, with its depth in the tree. *)
Theorem C82_read :
  forall faults s roots s',
    Forall clear_span (flat_map below roots) -> report_spans_text faults s roots = (s', None) ->
    exists doc, sk_out s' = sk_out s ++ doc /\ read_spans_text doc = Some (map told (flat_map (below_at 0) roots)).
Proof.
  intros faults s roots s' H E. pose proof (spans_text_delivered faults s (map span_view roots)) as D. unfold report_spans_text in E. rewrite E in D. destruct D as [_ ->].
  eexists. split; [reflexivity|]. exact (spans_text_read roots H).
Qed.
Print Assumptions C82_read.

(** Two sets of traces with the same report agree, trees included. *)
Theorem C82_trees :
  forall faults1 faults2 s1 s2 roots1 roots2 s1' s2' doc,
    Forall clear_span (flat_map below roots1) -> Forall clear_span (flat_map below roots2) ->
    report_spans_text faults1 s1 roots1 = (s1', None) -> report_spans_text faults2 s2 roots2 = (s2', None) ->
    sk_out s1' = sk_out s1 ++ doc -> sk_out s2' = sk_out s2 ++ doc ->
    map told_tree roots1 = map told_tree roots2.
Proof.
  intros faults1 faults2 s1 s2 roots1 roots2 s1' s2' doc H1 H2 E1 E2 O1 O2.
  destruct (C82_read faults1 s1 roots1 s1' H1 E1) as (d1 & D1 & R1). destruct (C82_read faults2 s2 roots2 s2' H2 E2) as (d2 & D2 & R2).
  apply told_trees. rewrite O1 in D1. rewrite O2 in D2. apply app_inv_head in D1, D2. congruence.
Qed.
Print Assumptions C82_trees.

(** With a line end in an annotation this fails: it can imitate a span. *)
Definition forged : rspan := RSpan 1 7 (B "f") [] 0 false [(B "k", B "v" ++ [newline] ++ B " [2,7] g() (elapsed: 0s)")] [].
Definition genuine : rspan := RSpan 1 7 (B "f") [] 0 false [(B "k", B "v")] [RSpan 2 7 (B "g") [] 0 false [] []].
Theorem C82_refuted :
  ~ forall faults s roots1 roots2 s1 s2,
      report_spans_text faults s roots1 = (s1, None) -> report_spans_text faults s roots2 = (s2, None) -> sk_out s1 = sk_out s2 ->
      map told_tree roots1 = map told_tree roots2.
Proof.
  intros H. specialize (H (fun _ => None) (Sink [] 0) [forged] [genuine]).
  assert (E : map told_tree [forged] = map told_tree [genuine]) by (eapply H; vm_compute; reflexivity). vm_compute in E. discriminate E.
Qed.
Print Assumptions C82_refuted.

Example C82_ex :
  Forall clear_span (flat_map below [ex_root]) /\
  exists s', report_spans_text (fun _ => None) (Sink [] 0) [ex_root] = (s', None) /\
    sk_out s' = unlines [B "[11,7] p.f() (elapsed: 2" ++ utf8 181 ++ B "s)"; B " [12,7] p.g(""x -> y"", 3) (elapsed: 1.5s, orphaned)"; B "   key: a""b"; []] /\
    read_spans_text (sk_out s') = Some [TSpan 0 11 7 (B "p.f()") 2000 false []; TSpan 1 12 7 (B "p.g(""x -> y"", 3)") 1500000000 true [B "key: a""b"]].
Proof.
  split.
  - assert (N : forall x, existsb (Ascii.eqb newline) x = false -> one_line x) by (intros x; apply lit_free).
    repeat apply Forall_cons_2; try apply Forall_nil_2; unfold clear_span, int64b; split_and!; try lia; try (apply N; reflexivity);
      repeat apply Forall_cons_2; try apply Forall_nil_2; try split; apply N; reflexivity.
  - eexists. split; [vm_compute; reflexivity|]. split; vm_compute; reflexivity.
Qed.

(** *** C83: FuncsText *)
Theorem C83_read :
  forall faults s fs s',
    Forall clear_func fs -> (forall k, faults k = None) -> report_funcs_text faults s fs = (s', None) ->
    exists doc, sk_out s' = sk_out s ++ doc /\ read_funcs_text doc = Some (map told_func fs).
Proof.
  intros faults s fs s' H Hf E. destruct (funcs_text_ok faults (map func_view fs) s Hf) as [D _]. unfold report_funcs_text in E. rewrite E in D. cbn [fst] in D. rewrite D.
  eexists. split; [reflexivity|]. exact (funcs_text_read fs H).
Qed.
Print Assumptions C83_read.
Theorem C83_no_error : forall faults s fs, (forall k, faults k = None) -> snd (report_funcs_text faults s fs) = None.
Proof. intros faults s fs Hf. apply (funcs_text_ok faults (map func_view fs) s Hf). Qed.
Print Assumptions C83_no_error.

(** With a line end in the name of an error this fails. *)
Definition two_errors : rfunc := RFunc 3 (B "f") [None] [(B "a", 0); (B "b", 2)] 1 2 3 0 ex_dist ex_dist.
Definition one_error : rfunc := RFunc 3 (B "f") [None] [(B "a: 0" ++ [newline] ++ B "  error b", 2)] 1 2 3 0 ex_dist ex_dist.
Theorem C83_refuted :
  ~ forall faults s fs1 fs2 s1 s2, (forall k, faults k = None) ->
      report_funcs_text faults s fs1 = (s1, None) -> report_funcs_text faults s fs2 = (s2, None) -> sk_out s1 = sk_out s2 ->
      map told_func fs1 = map told_func fs2.
Proof.
  intros H. specialize (H (fun _ => None) (Sink [] 0) [one_error] [two_errors]).
  assert (E : map told_func [one_error] = map told_func [two_errors]) by (eapply H; [intros k; reflexivity|vm_compute; reflexivity..]). vm_compute in E. discriminate E.
Qed.
Print Assumptions C83_refuted.

Example C83_ex :
  clear_func ex_func /\
  exists s', report_funcs_text (fun _ => None) (Sink [] 0) [ex_func] = (s', None) /\
    sk_out s' = unlines ([B "[3] p.f"; B "  parents: entry, 2"; B "  current: 1, highwater: 2, success: 3, errors: 4, panics: 0"; B "  error ERR: 4"; B "  success times:"] ++
      [B "    0.00: 5ns"; B "    1.00: 1" ++ utf8 181 ++ B "s"; B "    avg: 10ns"; B "    ravg: 20ns"; B "    recent: 5ns"; B "    sum: 1.005" ++ utf8 181 ++ B "s"] ++ [B "  failure times:"] ++
      [B "    0.00: 5ns"; B "    1.00: 1" ++ utf8 181 ++ B "s"; B "    avg: 10ns"; B "    ravg: 20ns"; B "    recent: 5ns"; B "    sum: 1.005" ++ utf8 181 ++ B "s"; []]) /\
    read_funcs_text (sk_out s') = Some [told_func ex_func].
Proof.
  split.
  - assert (N : forall x, existsb (Ascii.eqb newline) x = false -> one_line x) by (intros x; apply lit_free).
    unfold clear_func, clear_counts, clear_dist, errors_sum, int64b. cbn [ex_func ex_dist rf_id rf_name rf_parents rf_errors rf_current rf_highwater rf_success rf_panics rf_stimes rf_ftimes rd_query rd_average rd_reservoir rd_recent rd_sum map fold_right snd].
    split_and!; try lia; try (apply N; reflexivity); repeat apply Forall_cons_2; try apply Forall_nil_2; cbn [fst snd]; try lia; try exact I; try (apply N; reflexivity); (split; [apply N; reflexivity|lia]).
  - eexists. split; [vm_compute; reflexivity|]. split; vm_compute; reflexivity.
Qed.
