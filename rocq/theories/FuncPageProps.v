(** C97: the pages /funcs and /funcs/dot show every function once, with what happened to it. *)
From Coq Require Import Sorted.
From Verif Require Import Base BaseProofs SpecBase SeriesModel Conc ScopeModel ScopeSpec ScopeProofs TransformModel TransformSpec DistModel DistSpec
  PresentModel PresentSpec PresentProofs SvgModel ReportModel ReportSpec ReportProofs4 ReportProps JsonModel JsonSpec JsonProofs3 JsonProps RouteModel RouteSpec RouteProps FuncPageModel PsProofs FuncStatsModel FuncStatsSpec FuncStatsProofs FuncPageSpec FuncPageProofs.
Local Open Scope Z_scope.
Local Arguments B : simpl never.

Section page.
  Context {F R : Type} (fzero : F) (to32 : Z -> F) (fless : F -> F -> bool) (rng_next : R -> Z * R).
  Context (query : dist Z F R -> list (bytes * Z)) (ravg : dist Z F R -> Z) (fid : nat -> Z).
  Context (func_id : bytes * nat -> Z) (func_key : bytes * nat -> series_key) (reads : bytes * nat -> freads F R).
  Context (sched e_at s_at f_at : bytes * nat -> list (action fcall)) (range : list (bytes * rscope)).
  Local Notation view := (page_func query ravg fid func_id func_key reads).
  Local Notation during f := (read_during fzero to32 fless rng_next (sched f) (e_at f) (s_at f) (f_at f) (reads f)).

  (** FuncsText: an entry for each function. *)
  Theorem C97_text :
    forall faults w w',
      ranged range -> (forall f key, registered_as range f key -> func_key f = key) -> (forall f, registered range f -> during f) ->
      (forall f, registered range f -> clear_func (view f)) -> (forall k, faults k = None) ->
      funcs_page_text query ravg fid func_id func_key reads faults w range = (w', None) ->
      exists doc ls fs, sk_out w' = sk_out w ++ doc /\ read_funcs_text doc = Some ls /\ all_functions range fs /\
        Forall2 (fun f l => exists key, registered_as range f key /\
          entry_of fid (func_id f) (fst f) (func_short_name key) (sched f) (e_at f) (s_at f) (f_at f) (reads f) l) fs ls.
  Proof.
    intros faults w w' Hr Hk Hd Hc Hf E. pose proof (page_functions range Hr) as A. pose proof (proj1 (proj2 A)) as M.
    assert (C : Forall clear_func (map view (page_funcs range))).
    { apply Forall_map, Forall_forall. intros f H. apply Hc, M, H. }
    destruct (C83_read faults w _ w' C Hf E) as (doc & O & D). exists doc, (map told_func (map view (page_funcs range))), (page_funcs range).
    split_and!; [exact O|exact D|exact A|]. rewrite map_map. apply JsonProofs3.Forall2_map_self. intros f H. apply M in H. pose proof H as [key K].
    exists key. split; [exact K|]. rewrite <- (Hk f key K). apply (entry_ok fzero to32 fless rng_next). apply Hd, H.
  Qed.

  (** FuncsDot: a node for each function, and one for the entry to those called without a parent;
      an edge for each parent. *)
  Theorem C97_dot :
    forall faults w w',
      ranged range -> (forall f, registered range f -> clear_counts (view f) /\ ids_ok (view f)) ->
      funcs_page_dot query ravg fid func_id func_key reads faults w range = (w', None) ->
      exists doc l fs, sk_out w' = sk_out w ++ doc /\ read_dot doc = Some l /\ all_functions range fs /\
        Forall2 shows_text (flat_map (fun f => func_nodes (view f)) fs) (dot_nodes l) /\
        forall a b, (a, b) ∈ dot_edges l <->
          exists f p, registered range f /\ p ∈ fr_parents (reads f) /\ b = f_name (func_id f) /\
            a = match p with Some q => f_name (fid q) | None => entry_name (func_id f) end.
  Proof.
    intros faults w w' Hr Hc E. pose proof (page_functions range Hr) as A. pose proof (proj1 (proj2 A)) as M.
    assert (C : Forall (fun f => clear_counts f /\ ids_ok f) (map view (page_funcs range))).
    { apply Forall_map, Forall_forall. intros f H. apply Hc, M, H. }
    destruct (C81_funcs faults w _ w' C E) as (doc & l & O & D & N & G). exists doc, l, (page_funcs range).
    split_and!; [exact O|exact D|exact A| |].
    - rewrite flat_map_concat_map in N |- *. rewrite map_map in N. exact N.
    - intros a b. rewrite G, elem_of_list_In, in_flat_map. split.
      + intros (x & Hx & Hab). apply in_map_iff in Hx as (f & <- & Hf). apply elem_of_list_In, M in Hf. unfold func_edges in Hab.
        apply in_map_iff in Hab as (q & Eq & Hq). cbn [page_func rf_parents] in Hq. apply in_map_iff in Hq as (p & <- & Hp).
        apply pair_equal_spec in Eq as [<- <-]. exists f, p. split_and!; [exact Hf|apply elem_of_list_In, Hp|reflexivity|destruct p; reflexivity].
      + intros (f & p & Hf & Hp & -> & ->). exists (view f). split; [apply in_map_iff; exists f; split; [reflexivity|apply elem_of_list_In, M, Hf]|].
        unfold func_edges. apply in_map_iff. exists (option_map fid p). split; [destruct p; reflexivity|]. cbn [page_func rf_parents]. apply in_map, elem_of_list_In, Hp.
  Qed.

  (** FuncsJSON: an object for each function. *)
  Theorem C97_json :
    forall short_bf faults w w',
      ranged range -> (forall f key, registered_as range f key -> func_key f = key) -> (forall f, registered range f -> during f) ->
      (forall f, registered range f -> proper_func (page_jfunc query ravg fid func_id func_key reads f)) ->
      funcs_page_json query ravg fid func_id func_key reads short_bf faults w range = (w', None) ->
      exists doc js fs, sk_out w' = sk_out w ++ doc /\ is_json doc (JArray js) /\ all_functions range fs /\
        Forall2 (fun f j => exists key, registered_as range f key /\
          object_of fid (func_id f) (fst f) (func_short_name key) (sched f) (e_at f) (s_at f) (f_at f) (reads f) j) fs js.
  Proof.
    intros bf faults w w' Hr Hk Hd Hc E. pose proof (page_functions range Hr) as A. pose proof (proj1 (proj2 A)) as M.
    set (jv := page_jfunc query ravg fid func_id func_key reads) in *.
    destruct (C80_funcs bf (map jv (page_funcs range)) faults w) as (chunks & js & J & G & D).
    { apply Forall_map, Forall_forall. intros f H. apply Hc, M, H. }
    rewrite map_map in D. unfold funcs_page_json in E. fold jv in E. rewrite E in D. destruct D as [_ ->].
    exists (concat chunks), js, (page_funcs range). split_and!; [reflexivity|exact J|exact A|].
    apply (Forall2_fmap_l jv) in G. apply Forall2_same_length_lookup. apply Forall2_same_length_lookup in G as [GL G]. split; [exact GL|].
    intros k f j Hf Hj. destruct (G k f j Hf Hj) as (qs & qf & _ & _ & O). apply elem_of_list_lookup_2, M in Hf. pose proof Hf as [key K].
    exists key. split; [exact K|]. exists (jv f), qs, qf. split; [|exact O]. rewrite <- (Hk f key K). apply (members_ok fzero to32 fless rng_next), Hd, Hf.
  Qed.

  (** Over HTTP, whatever the rest of the path and the query are. *)
  Theorem C97_http :
    forall short_bf compile url_ok name funcs path segs q,
      ranged range -> (forall f key, registered_as range f key -> func_key f = key) -> (forall f, registered range f -> during f) ->
      segments path segs ->
      let get := funcs_get query ravg fid func_id func_key reads short_bf (from_request compile url_ok name funcs path q) range in
      (take 2 segs = [B "funcs"] \/ take 2 segs = [B "funcs"; B "text"] -> (forall f, registered range f -> clear_func (view f)) ->
       exists doc ls fs, get = Some (B "text/plain; charset=utf-8", (200, doc)) /\ read_funcs_text doc = Some ls /\ all_functions range fs /\
         Forall2 (fun f l => exists key, registered_as range f key /\
           entry_of fid (func_id f) (fst f) (func_short_name key) (sched f) (e_at f) (s_at f) (f_at f) (reads f) l) fs ls) /\
      (take 2 segs = [B "funcs"; B "json"] -> (forall f, registered range f -> proper_func (page_jfunc query ravg fid func_id func_key reads f)) ->
       exists doc js fs, get = Some (B "application/json; charset=utf-8", (200, doc)) /\ is_json doc (JArray js) /\ all_functions range fs /\
         Forall2 (fun f j => exists key, registered_as range f key /\
           object_of fid (func_id f) (fst f) (func_short_name key) (sched f) (e_at f) (s_at f) (f_at f) (reads f) j) fs js) /\
      (take 2 segs = [B "funcs"; B "dot"] -> (forall f, registered range f -> clear_counts (view f) /\ ids_ok (view f)) ->
       exists doc l fs, get = Some (B "text/plain; charset=utf-8", (200, doc)) /\ read_dot doc = Some l /\ all_functions range fs /\
         Forall2 shows_text (flat_map (fun f => func_nodes (view f)) fs) (dot_nodes l)).
  Proof.
    intros bf compile url_ok name funcs path segs q Hr Hk Hd Hl get.
    assert (P : forall p, (take 2 segs, p) ∈ pages -> from_request compile url_ok name funcs path q = APage p (content_type p)).
    { intros p Hp. apply (C46_pages compile url_ok name funcs path segs q p (content_type p) Hl). split; [exact Hp|reflexivity]. }
    subst get. split_and!.
    - intros Hp Hc. rewrite (P PFuncsText) by (destruct Hp as [-> | ->]; unfold pages; set_solver). cbn [funcs_get content_type].
      destruct (funcs_page_text query ravg fid func_id func_key reads (fun _ => None) (Sink [] 0) range) as [w' e] eqn:E.
      assert (X : e = None).
      { pose proof (C83_no_error (fun _ => None) (Sink [] 0) (map view (page_funcs range)) (fun _ => eq_refl)) as Y. unfold funcs_page_text in E. rewrite E in Y. exact Y. }
      subst e. destruct (C97_text (fun _ => None) (Sink [] 0) w' Hr Hk Hd Hc (fun _ => eq_refl) E) as (doc & ls & fs & O & D & A & G).
      exists doc, ls, fs. cbn [fst snd]. rewrite O, served. split_and!; [reflexivity|exact D|exact A|exact G].
    - intros Hp Hc. rewrite (P PFuncsJSON) by (rewrite Hp; unfold pages; set_solver). cbn [funcs_get content_type].
      destruct (funcs_page_json query ravg fid func_id func_key reads bf (fun _ => None) (Sink [] 0) range) as [w' e] eqn:E.
      assert (X : e = None).
      { destruct e as [e|]; [|reflexivity]. destruct (C80_funcs bf (map (page_jfunc query ravg fid func_id func_key reads) (page_funcs range)) (fun _ => None) (Sink [] 0)) as (chunks & js & _ & _ & D).
        { apply Forall_map, Forall_forall. intros f H. apply Hc, (page_functions range Hr), H. }
        rewrite map_map in D. unfold funcs_page_json in E. rewrite E in D. destruct D as (i & p & n & _ & _ & Hx & _). discriminate Hx. }
      subst e. destruct (C97_json bf (fun _ => None) (Sink [] 0) w' Hr Hk Hd Hc E) as (doc & ls & fs & O & D & A & G).
      exists doc, ls, fs. cbn [fst snd]. rewrite O, served. split_and!; [reflexivity|exact D|exact A|exact G].
    - intros Hp Hc. rewrite (P PFuncsDot) by (rewrite Hp; unfold pages; set_solver). cbn [funcs_get content_type].
      destruct (funcs_page_dot query ravg fid func_id func_key reads (fun _ => None) (Sink [] 0) range) as [w' e] eqn:E.
      assert (X : e = None).
      { destruct e as [e|]; [|reflexivity]. pose proof (funcs_dot_delivered (fun _ => None) (Sink [] 0) (map func_view (map view (page_funcs range)))) as D.
        unfold funcs_page_dot, report_funcs_dot in E. rewrite E in D. destruct D as (i & p & n & _ & _ & Hx & _). discriminate Hx. }
      subst e. destruct (C97_dot (fun _ => None) (Sink [] 0) w' Hr Hc E) as (doc & ls & fs & O & D & A & G & _).
      exists doc, ls, fs. cbn [fst snd]. rewrite O, served. split_and!; [reflexivity|exact D|exact A|exact G].
  Qed.
End page.
Print Assumptions C97_text.
Print Assumptions C97_dot.
Print Assumptions C97_json.
Print Assumptions C97_http.

(** ** Example: two scopes; one call that failed, then one that succeeded, then Parents. *)
Definition ex_call (i : nat) (p : parent) (err : option bytes) (d : Z) : list (action fcall) := Spawn (FCall p err false d) :: replicate 9 (Run i).
Definition ex_calls : list (action fcall) := ex_call 0 None (Some (B "E")) 4 ++ ex_call 1 (Some 7%nat) None 6 ++ [Spawn (FParents (fun l => l)); Run 2; Run 2].
Definition ex_to32 (v : Z) : Z := v.
Definition ex_next (r : nat) : Z * nat := (5, r).
Definition ex_hist (ds : list Z) : list (Z * dist_op Z nat) := map (fun d => (1024, DInsert d)) ds.
Definition ex_d (ds : list Z) : dist Z Z nat := match idist_run ex_to32 Z.ltb ex_next (idist_new 0 0%nat) (ex_hist ds) with Ok d => d | Panic _ => idist_new 0 0%nat end.
Definition ex_parents : list parent :=
  match threads (f_exec ex_calls) !! 2%nat with Some (FThr _ (F_done (FRParents l))) => l | _ => [] end.
(** Errors were asked for before the first call ended, the rest in the end. *)
Definition ex_reads : freads Z nat := FReads ex_parents [] [] ex_calls ex_calls ex_calls (ex_d [6]) (ex_d [4]).
Lemma ex_during : read_during 0 ex_to32 Z.ltb ex_next ex_calls [] ex_calls ex_calls ex_reads.
Proof.
  constructor.
  - repeat apply Forall_cons_2; try apply Forall_nil_2; first [reflexivity|apply prefix_nil].
  - exists 2%nat, (fun l => l). split; [intros l; reflexivity|]. vm_compute. reflexivity.
  - vm_compute. reflexivity.
  - exists 0%nat, (ex_hist [6]). split; [vm_compute; reflexivity|]. split; vm_compute; reflexivity.
  - exists 0%nat, (ex_hist [4]). split; [vm_compute; reflexivity|]. split; vm_compute; reflexivity.
Qed.

(** The counters are read one after the other: this page shows the success but not the error before
    it, so there was no moment at which all of it was true. *)
Theorem C97_moment_refuted :
  exists sched e_at s_at f_at (r : freads Z nat), read_during 0 ex_to32 Z.ltb ex_next sched e_at s_at f_at r /\
    tf_counts (told_func (page_func (fun _ => []) (fun _ => 0) Z.of_nat (fun _ => 3) (fun _ => SeriesKey (B "function") ∅) (fun _ => r) (B "p", 0%nat))) =
      [(B "current", 0); (B "highwater", 1); (B "success", 1); (B "errors", 0); (B "panics", 0)] /\
    forall pre, pre `prefix_of` sched -> ~ (number_of CSuccess (ends (state_after pre)) = 1 /\ number_of_errors (ends (state_after pre)) = 0).
Proof.
  exists ex_calls, [], ex_calls, ex_calls, ex_reads. split; [exact ex_during|]. split; [vm_compute; reflexivity|].
  intros pre [more E].
  assert (G : forallb (fun k => negb ((number_of CSuccess (ends (state_after (take k ex_calls))) =? 1) && (number_of_errors (ends (state_after (take k ex_calls))) =? 0)))
                (seq 0 (S (length ex_calls))) = true) by (vm_compute; reflexivity).
  rewrite forallb_forall in G. specialize (G (length pre)).
  assert (T : take (length pre) ex_calls = pre) by (rewrite E, take_app; reflexivity). rewrite T in G.
  assert (I : In (length pre) (seq 0 (S (length ex_calls)))) by (apply in_seq; rewrite E, app_length; lia). specialize (G I).
  intros [A C]. rewrite A, C in G. discriminate G.
Qed.
Print Assumptions C97_moment_refuted.

Definition ex_lookup (n : bytes) : list (action call) := [Spawn (CLookup KFunc n []); Run 0; Run 0].
Definition ex_scope (n : bytes) : rscope := RScope (ex_lookup n) (map_to_list (table (ex_lookup n))) (fun l => l).
Definition ex_range : list (bytes * rscope) := [(B "q", ex_scope (B "g")); (B "p", ex_scope (B "f"))].
Definition ex_fkey (f : bytes * nat) : series_key := constructor_key KFunc (if beqb (fst f) (B "q") then B "g" else B "f") [].
Definition ex_fid (f : bytes * nat) : Z := if beqb (fst f) (B "q") then 12 else 11.
Lemma ex_table : map_to_list (table (ex_lookup (B "g"))) = [(table_name KFunc (B "g") [], Src 0 KFunc (ex_fkey (B "q", 0%nat)))] /\
  map_to_list (table (ex_lookup (B "f"))) = [(table_name KFunc (B "f") [], Src 0 KFunc (ex_fkey (B "p", 0%nat)))].
Proof. split; vm_compute; reflexivity. Qed.
Lemma ex_registered f key : registered_as ex_range f key -> (f = (B "q", 0%nat) \/ f = (B "p", 0%nat)) /\ key = ex_fkey f.
Proof.
  intros (r & n & Hr & T). destruct f as [sc id]. cbn [fst snd] in *. unfold ex_range in Hr.
  apply elem_of_cons in Hr as [E|Hr]; [|apply elem_of_cons in Hr as [E|Hr]; [|inversion Hr]]; apply pair_equal_spec in E as [-> ->]; cbn [rs_sched ex_scope] in T;
    apply elem_of_map_to_list in T; [rewrite (proj1 ex_table) in T|rewrite (proj2 ex_table) in T];
    apply elem_of_list_singleton, pair_equal_spec in T as [_ T]; assert (id = 0%nat /\ key = match id with _ => _ end) as [-> ->] by (inversion T; split; reflexivity); auto.
Qed.
Lemma ex_ranged : ranged ex_range.
Proof.
  split; [apply (bool_decide_unpack _); vm_compute; exact I|].
  repeat apply Forall_cons_2; try apply Forall_nil_2; (split; [reflexivity|intros l; reflexivity]).
Qed.
Definition ex_view (f : bytes * nat) : rfunc := page_func (fun _ : dist Z Z nat => []) (fun _ => 0) Z.of_nat ex_fid ex_fkey (fun _ => ex_reads) f.
Lemma ex_clear f : f = (B "q", 0%nat) \/ f = (B "p", 0%nat) -> clear_func (ex_view f) /\ clear_counts (ex_view f) /\ ids_ok (ex_view f).
Proof.
  assert (N : forall x, existsb (Ascii.eqb newline) x = false -> one_line x) by (intros x; apply lit_free).
  intros H. destruct (ex_view f) as [i n ps er cu hi su pa sd fd] eqn:V.
  assert (P : ps = [None; Some 7] /\ er = [] /\ cu = 0 /\ hi = 1 /\ su = 1 /\ pa = 0 /\ sd = RDist [] 6 0 6 6 /\ fd = RDist [] 4 0 4 4 /\ (i = 11 \/ i = 12) /\ existsb (Ascii.eqb newline) n = false).
  { destruct H as [-> | ->]; vm_compute in V; injection V as <- <- <- <- <- <- <- <- <- <-; vm_compute; auto 20. }
  destruct P as (-> & -> & -> & -> & -> & -> & -> & -> & Hi & Hn).
  unfold clear_func, clear_counts, ids_ok, clear_dist, errors_sum, int64b, an_id.
  cbn [rf_id rf_name rf_parents rf_errors rf_current rf_highwater rf_success rf_panics rf_stimes rf_ftimes rd_query rd_average rd_reservoir rd_recent rd_sum map fold_right snd].
  split_and!; try lia; try (apply N; assumption); repeat apply Forall_cons_2; try apply Forall_nil_2; cbn [fst snd]; try lia; try exact I.
  intros q Hq. repeat (apply elem_of_cons in Hq as [E|Hq]; [first [discriminate E|injection E as ->; lia]|]). inversion Hq.
Qed.

Example C97_example :
  ranged ex_range /\ (forall f key, registered_as ex_range f key -> ex_fkey f = key) /\
  read_during 0 ex_to32 Z.ltb ex_next ex_calls [] ex_calls ex_calls ex_reads /\
  (forall f, registered ex_range f -> clear_func (ex_view f) /\ clear_counts (ex_view f) /\ ids_ok (ex_view f)) /\
  registered ex_range (B "q", 0%nat) /\
  (exists w', funcs_page_text (fun _ : dist Z Z nat => []) (fun _ => 0) Z.of_nat ex_fid ex_fkey (fun _ => ex_reads) (fun _ => None) (Sink [] 0) ex_range = (w', None) /\
    option_map (take 4) (lines (sk_out w')) =
      Some [B "[11] p.f"; B "  parents: entry, 7"; B "  current: 0, highwater: 1, success: 1, errors: 0, panics: 0"; B "  success times:"]) /\
  (exists w' l, funcs_page_dot (fun _ : dist Z Z nat => []) (fun _ => 0) Z.of_nat ex_fid ex_fkey (fun _ => ex_reads) (fun _ => None) (Sink [] 0) ex_range = (w', None) /\
    read_dot (sk_out w') = Some l /\ dot_edges l = [(B "r11", B "f11"); (B "f7", B "f11"); (B "r12", B "f12"); (B "f7", B "f12")]).
Proof.
  split; [exact ex_ranged|]. split; [intros f key H; symmetry; apply (ex_registered f key H)|]. split; [exact ex_during|].
  split; [intros f [key H]; apply ex_clear, (ex_registered f key H)|].
  split; [exists (ex_fkey (B "q", 0%nat)), (ex_scope (B "g")), (table_name KFunc (B "g") []); split; [left|vm_compute; reflexivity]|].
  split; [eexists; split; vm_compute; reflexivity|].
  eexists _, _. split; [vm_compute; reflexivity|]. split; [vm_compute; reflexivity|]. vm_compute. reflexivity.
Qed.
Example C97_example_http :
  segments (B "/funcs/text") [B "funcs"; B "text"] /\
  proper_func (page_jfunc (fun _ : dist Z Z nat => []) (fun _ => 0) Z.of_nat ex_fid ex_fkey (fun _ => ex_reads) (B "q", 0%nat)) /\
  exists doc, funcs_get (fun _ : dist Z Z nat => []) (fun _ => 0) Z.of_nat ex_fid ex_fkey (fun _ => ex_reads) true (from_request (fun _ => None) (fun _ => true) (fun _ => []) [] (B "/funcs/text") (Query [] [] [] [])) ex_range =
    Some (B "text/plain; charset=utf-8", (200, doc)).
Proof.
  split; [|split; [|eexists; vm_compute; reflexivity]].
  2: { assert (E : page_jfunc (fun _ : dist Z Z nat => []) (fun _ => 0) Z.of_nat ex_fid ex_fkey (fun _ => ex_reads) (B "q", 0%nat) =
           JFunc 12 [None; Some 7] (B "q") (B "g") 0 1 1 0 [] (JDist 6 0 6 6 6 []) (JDist 4 0 4 4 4 [])) by (vm_compute; reflexivity). rewrite E. clear E.
       unfold proper_func, proper_dist, int64. cbn [jf_id jf_parents jf_current jf_highwater jf_success jf_panics jf_errors jf_stimes jf_ftimes jd_average jd_reservoir jd_high jd_low jd_recent jd_query map].
       split_and!; try lia; try apply NoDup_nil_2; try apply Forall_nil_2.
       intros p Hp. repeat (apply elem_of_cons in Hp as [E|Hp]; [first [discriminate E|injection E as ->; lia]|]). inversion Hp. }
  exists [[]; B "funcs"; B "text"]. split; [discriminate|]. split; [vm_compute; reflexivity|]. split; [|vm_compute; reflexivity].
  apply Forall_forall. intros x Hx. apply (bool_decide_unpack _). repeat (apply elem_of_cons in Hx as [->|Hx]; [vm_compute; exact I|]). inversion Hx.
Qed.
