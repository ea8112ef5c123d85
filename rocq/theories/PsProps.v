(** C96: the pages /ps, /ps/dot and /ps/json show the running spans, all of them and no others. *)
From Coq Require Import Sorted.
From Verif Require Import Base BaseProofs Conc PresentModel PresentSpec PresentProofs SvgModel SvgSpec ArgsModel JsonModel JsonSpec JsonProofs JsonProofs2 JsonProofs3 JsonProps
  ReportModel ReportSpec ReportProofs4 ReportProps ScopeSpec RouteModel RouteSpec RouteProofs RouteProps FuncStatsModel SpanModel SpanSpec SpanProofs SpanProps PsModel PsSpec PsProofs.
Local Open Scope Z_scope.
Local Arguments B : simpl never.

(** SpansText: from what it writes if nothing fails one reads the trees of running spans. *)
Theorem C96_text :
  forall table short_del other about mord sched fuel faults w w',
    well_formed sched -> quiet sched -> any_order mord -> (length (threads (sp_exec sched)) <= fuel)%nat ->
    (forall i, running sched i -> sound (about i) /\ unbroken table short_del other (about i)) ->
    ps_text table short_del other about mord (sp_exec sched) faults w fuel = (w', None) ->
    exists doc ls, sk_out w' = sk_out w ++ doc /\ read_spans_text doc = Some ls /\
      text_page table short_del other about sched ls /\
      exists ids, the_running sched ids /\ Forall2 (fun i l => exists d, line_of table short_del other about sched d i l) ids ls.
Proof.
  intros table sd other about mord sched fuel faults w w' Hw Hq Ho Hf Hs E.
  destruct (C82_read faults w _ w' (clear_all table sd other about mord sched Hw Hq Ho fuel Hf Hs) E) as (doc & O & R).
  exists doc. eexists. split; [exact O|]. split; [exact R|]. split; [apply text_page_ok; assumption|].
  eexists. split; [exact (all_running about mord sched Hw Hq Ho fuel Hf)|]. apply lines_once; assumption.
Qed.
Print Assumptions C96_text.

(** SpansDot: a node for each running span, an edge from each to its running children. *)
Theorem C96_dot :
  forall table short_del other about mord sched fuel faults w w',
    well_formed sched -> quiet sched -> any_order mord -> (length (threads (sp_exec sched)) <= fuel)%nat ->
    (forall i, running sched i -> an_id (si_id (about i))) ->
    ps_dot table short_del other about mord (sp_exec sched) faults w fuel = (w', None) ->
    exists doc l, sk_out w' = sk_out w ++ doc /\ read_dot doc = Some l /\
      (exists ids, the_running sched ids /\ Forall2 (node_of table short_del other about sched) ids (dot_nodes l)) /\
      forall a b, (a, b) ∈ dot_edges l <->
        exists p k, running sched p /\ running sched k /\ parent_is sched k p /\ a = f_name (si_id (about p)) /\ b = f_name (si_id (about k)).
Proof.
  intros table sd other about mord sched fuel faults w w' Hw Hq Ho Hf Hs E.
  destruct (C81_spans faults w _ w' (ids_all table sd other about mord sched Hw Hq Ho fuel Hf Hs) E) as (doc & l & O & R & Hn & He).
  exists doc, l. split; [exact O|]. split; [exact R|]. split.
  - eexists. split; [exact (all_running about mord sched Hw Hq Ho fuel Hf)|]. eapply nodes_ok; eassumption.
  - intros a b. rewrite He. apply edges_ok; assumption.
Qed.
Print Assumptions C96_dot.

(** SpansJSON: an object for each running span. *)
Theorem C96_json :
  forall table short_del other about mord sched fuel short_bf faults w w',
    well_formed sched -> quiet sched -> any_order mord -> (length (threads (sp_exec sched)) <= fuel)%nat ->
    (forall i, sound (about i)) ->
    ps_json table short_del other about mord (sp_exec sched) short_bf faults w fuel = (w', None) ->
    exists doc js, sk_out w' = sk_out w ++ doc /\ is_json doc (JArray js) /\
      exists ids, the_running sched ids /\ Forall2 (object_of table short_del other about sched) ids js.
Proof.
  intros table sd other about mord sched fuel bf faults w w' Hw Hq Ho Hf Hs E.
  set (ids := all_spans (ps_info about) mord (shared (sp_exec sched)) fuel) in *.
  destruct (C80_spans bf table sd other (map (fun i => (ps_jspan about (sp_exec sched) i, si_dur (about i))) ids) faults w) as (chunks & js & J & F & D).
  { apply Forall_forall. intros e He. apply elem_of_list_In, in_map_iff in He as (i & <- & _). cbn [fst snd]. apply jspan_proper, Hs. }
  rewrite map_map in D. cbn [fst snd] in D. unfold ps_json in E. fold ids in E. rewrite E in D. destruct D as [_ ->].
  exists (concat chunks), js. split; [reflexivity|]. split; [exact J|]. exists ids.
  pose proof (all_running about mord sched Hw Hq Ho fuel Hf) as R. split; [exact R|].
  apply (Forall2_fmap_l (fun i => (ps_jspan about (sp_exec sched) i, si_dur (about i)))) in F.
  apply Forall2_same_length_lookup. apply Forall2_same_length_lookup in F as [FL F]. split; [exact FL|]. intros k i j Hi Hj.
  apply object_ok; [assumption|assumption| |exact (F k i j Hi Hj)]. apply R. eapply elem_of_list_lookup_2, Hi.
Qed.
Print Assumptions C96_json.

(** Over HTTP, whatever the rest of the path and the query are: status 200, the content type and a
    body that shows the running spans. *)
Theorem C96_http :
  forall table short_del other about mord sched fuel short_bf compile url_ok name funcs path segs q,
    well_formed sched -> quiet sched -> any_order mord -> (length (threads (sp_exec sched)) <= fuel)%nat ->
    (forall i, sound (about i)) -> segments path segs ->
    let get := ps_get table short_del other about mord (sp_exec sched) short_bf (from_request compile url_ok name funcs path q) fuel in
    ((forall i, running sched i -> unbroken table short_del other (about i)) ->
     take 2 segs = [B "ps"] \/ take 2 segs = [B "ps"; B "text"] ->
     exists doc ls, get = Some (B "text/plain; charset=utf-8", (200, doc)) /\ read_spans_text doc = Some ls /\ text_page table short_del other about sched ls) /\
    (take 2 segs = [B "ps"; B "dot"] ->
     exists doc l ids, get = Some (B "text/plain; charset=utf-8", (200, doc)) /\ read_dot doc = Some l /\
       the_running sched ids /\ Forall2 (node_of table short_del other about sched) ids (dot_nodes l)) /\
    (take 2 segs = [B "ps"; B "json"] ->
     exists doc js ids, get = Some (B "application/json; charset=utf-8", (200, doc)) /\ is_json doc (JArray js) /\
       the_running sched ids /\ Forall2 (object_of table short_del other about sched) ids js).
Proof.
  intros table sd other about mord sched fuel bf compile url_ok name funcs path segs q Hw Hq Ho Hf Hs Hl get.
  assert (P : forall p, (take 2 segs, p) ∈ pages -> from_request compile url_ok name funcs path q = APage p (content_type p)).
  { intros p Hp. apply (C46_pages compile url_ok name funcs path segs q p (content_type p) Hl). split; [exact Hp|reflexivity]. }
  subst get. split_and!.
  - intros Hu Hp. rewrite (P PSpansText) by (destruct Hp as [-> | ->]; unfold pages; set_solver). cbn [ps_get content_type].
    destruct (ps_text table sd other about mord (sp_exec sched) (fun _ => None) (Sink [] 0) fuel) as [w' e] eqn:E.
    assert (e = None).
    { pose proof (spans_text_delivered (fun _ => None) (Sink [] 0) (map span_view (ps_roots table sd other about mord (sp_exec sched) fuel))) as D.
      unfold ps_text, report_spans_text in E. rewrite E in D. destruct e as [e|]; [|reflexivity]. destruct D as (i & p & n & _ & _ & F & _). discriminate F. }
    subst e. destruct (C96_text table sd other about mord sched fuel _ _ w' Hw Hq Ho Hf (fun i Hi => conj (Hs i) (Hu i Hi)) E) as (doc & ls & O & R & T & _).
    exists doc, ls. cbn [fst snd]. rewrite O, served. split_and!; [reflexivity|exact R|exact T].
  - intros Hp. rewrite (P PSpansDot) by (rewrite Hp; unfold pages; set_solver). cbn [ps_get content_type].
    destruct (ps_dot table sd other about mord (sp_exec sched) (fun _ => None) (Sink [] 0) fuel) as [w' e] eqn:E.
    assert (e = None).
    { destruct e as [e|]; [|reflexivity]. destruct (C81_failed _ _ _ _ _ E) as (i & n & _ & F). discriminate F. }
    subst e. destruct (C96_dot table sd other about mord sched fuel _ _ w' Hw Hq Ho Hf (fun i _ => proj1 (Hs i)) E) as (doc & l & O & R & (ids & T & U) & _).
    exists doc, l, ids. cbn [fst snd]. rewrite O, served. split_and!; [reflexivity|exact R|exact T|exact U].
  - intros Hp. rewrite (P PSpansJSON) by (rewrite Hp; unfold pages; set_solver). cbn [ps_get content_type].
    destruct (ps_json table sd other about mord (sp_exec sched) bf (fun _ => None) (Sink [] 0) fuel) as [w' e] eqn:E.
    assert (e = None).
    { destruct e as [e|]; [|reflexivity].
      destruct (C80_spans bf table sd other (map (fun i => (ps_jspan about (sp_exec sched) i, si_dur (about i))) (all_spans (ps_info about) mord (shared (sp_exec sched)) fuel)) (fun _ => None) (Sink [] 0)) as (chunks & js & _ & _ & D).
      { apply Forall_forall. intros x Hx. apply elem_of_list_In, in_map_iff in Hx as (i & <- & _). cbn [fst snd]. apply jspan_proper, Hs. }
      rewrite map_map in D. cbn [fst snd] in D. unfold ps_json in E. rewrite E in D. destruct D as (i & p & n & _ & _ & F & _). discriminate F. }
    subst e. destruct (C96_json table sd other about mord sched fuel bf _ _ w' Hw Hq Ho Hf Hs E) as (doc & js & O & R & ids & T & U).
    exists doc, js, ids. cbn [fst snd]. rewrite O, served. split_and!; [reflexivity|exact R|exact T|exact U].
Qed.
Print Assumptions C96_http.

Definition ex_about (i : nat) : sinfo := SInfo (Z.of_nat i) 7 (B "p") (B "f") [] None 0 1000000000 [(B "k", B "v")].
Lemma ex_sound i : (Z.of_nat i < 2 ^ 63) -> sound (ex_about i).
Proof. intros H. unfold sound, an_id, int64. cbn. split_and!; try lia. intros p Hp. discriminate Hp. Qed.

(** While a span is finishing the page is not to be relied on: a running child shows up twice. *)
Theorem C96_refuted :
  exists sched fuel w' ls, well_formed sched /\ (length (threads (sp_exec sched)) <= fuel)%nat /\
    ps_text (fun _ => false) false (fun _ => []) ex_about (fun l => l) (sp_exec sched) (fun _ => None) (Sink [] 0) fuel = (w', None) /\
    read_spans_text (sk_out w') = Some ls /\ map ts_id ls = [0; 1; 1].
Proof.
  exists (start 0 None ++ start 1 (Some 0%nat) ++ finish 0 4), 2%nat. eexists _, _.
  split; [apply ex_wf; [vm_compute; reflexivity|ex_ord]|]. split; [vm_compute; lia|]. split; [vm_compute; reflexivity|]. split; [vm_compute; reflexivity|]. reflexivity.
Qed.
Print Assumptions C96_refuted.

(** The schedule of C20: 0 and its child 2 run, 1 has finished and left 3 behind. *)
Example C96_example :
  well_formed ex20 /\ quiet ex20 /\ any_order (fun l : list nat => l) /\
  (forall i, running ex20 i -> sound (ex_about i) /\ unbroken (fun _ => false) false (fun _ => []) (ex_about i)) /\
  exists w', ps_text (fun _ => false) false (fun _ => []) ex_about (fun l => l) (sp_exec ex20) (fun _ => None) (Sink [] 0) 4 = (w', None) /\
    sk_out w' = unlines [B "[0,7] p.f() (elapsed: 1s)"; B "  k: v"; B " [2,7] p.f() (elapsed: 1s)"; B "   k: v"; [];
                         B "[3,7] p.f() (elapsed: 1s, orphaned)"; B "  k: v"; []].
Proof.
  split; [apply C20_example|]. split; [apply C20_example|]. split; [intros l; reflexivity|]. split.
  - intros i Hr. destruct Hr as (x & Hx). apply lookup_lt_Some in Hx. change (length (threads (sp_exec ex20))) with 4%nat in Hx. split; [apply ex_sound; lia|].
    assert (L : forall x, existsb (Ascii.eqb newline) x = false -> one_line x) by (intros y; apply lit_free).
    unfold unbroken. cbn. split_and!; try (apply L; reflexivity); [apply Forall_nil_2|]. apply Forall_cons_2; [split; apply L; reflexivity|apply Forall_nil_2].
  - eexists. split; [vm_compute; reflexivity|]. vm_compute. reflexivity.
Qed.
Definition ex_small (i : nat) : sinfo := SInfo (Z.of_nat (Nat.min i 9)) 7 (B "p") (B "f") [] (if (i =? 3)%nat then Some 5 else None) 0 1000000000 [].
Example C96_example_http :
  (forall i, sound (ex_small i)) /\ segments (B "/ps/dot/") [B "ps"; B "dot"] /\ segments (B "/ps/json") [B "ps"; B "json"] /\
  (exists doc l, ps_get (fun _ => false) false (fun _ => []) ex_small (fun l => l) (sp_exec ex20) false
     (from_request (fun _ => None) (fun _ => true) (fun _ => []) [] (B "/ps/dot/") (Query [] [] [] [])) 4 = Some (B "text/plain; charset=utf-8", (200, doc)) /\
     read_dot doc = Some l /\ map fst (dot_nodes l) = [B "f0"; B "f2"; B "f3"] /\ dot_edges l = [(B "f0", B "f2")]) /\
  exists doc js, ps_get (fun _ => false) false (fun _ => []) ex_small (fun l => l) (sp_exec ex20) false
     (from_request (fun _ => None) (fun _ => true) (fun _ => []) [] (B "/ps/json") (Query [] [] [] [])) 4 = Some (B "application/json; charset=utf-8", (200, doc)) /\
     read_json doc = Some (JArray js) /\ length js = 3%nat.
Proof.
  split.
  { intros i. unfold sound, an_id, int64, ex_small. cbn. split_and!; try lia. intros p Hp. destruct (i =? 3)%nat; [apply Some_inj in Hp; lia|discriminate Hp]. }
  split; [|split].
  - exists [[]; B "ps"; B "dot"; []]. split; [discriminate|]. split; [vm_compute; reflexivity|]. split; [|vm_compute; reflexivity].
    apply Forall_forall. intros x Hx. apply (bool_decide_unpack _). repeat (apply elem_of_cons in Hx as [->|Hx]; [vm_compute; exact I|]). inversion Hx.
  - exists [[]; B "ps"; B "json"]. split; [discriminate|]. split; [vm_compute; reflexivity|]. split; [|vm_compute; reflexivity].
    apply Forall_forall. intros x Hx. apply (bool_decide_unpack _). repeat (apply elem_of_cons in Hx as [->|Hx]; [vm_compute; exact I|]). inversion Hx.
  - split; [eexists _, _; split; [vm_compute; reflexivity|]; split; [vm_compute; reflexivity|]; split; vm_compute; reflexivity|].
    eexists _, _. split; [vm_compute; reflexivity|]. split; vm_compute; reflexivity.
Qed.
