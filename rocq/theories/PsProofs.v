(** Proofs for C96. *)
From Coq Require Import Sorted.
From Verif Require Import Base BaseProofs Conc PresentModel PresentSpec PresentProofs SvgModel SvgSpec ArgsModel JsonModel JsonSpec JsonProofs JsonProofs2 JsonProofs3
  ReportModel ReportSpec ReportProofs4 ScopeSpec RouteModel RouteSpec RouteProofs FuncStatsModel SpanModel SpanSpec SpanProofs PsModel PsSpec.
Local Open Scope Z_scope.
Local Arguments B : simpl never.

Section proofs.
  Context (table : Z -> bool) (short_del : bool) (other : list arg -> bytes) (about : nat -> sinfo) (mord : list nat -> list nat) (sched : list (action scall)).
  Context (Hw : well_formed sched) (Hq : quiet sched) (Ho : any_order mord).
  Local Notation c := (sp_exec sched).
  Local Notation s := (spans_after sched).
  Local Notation N := (length (threads c)).
  Local Notation tree := (ps_tree table short_del other about mord c).
  Local Notation info := (ps_info about).
  Local Notation kids i := (bag_children info mord (children_of s i)).

  Lemma less_earlier i j : span_less info j i = false -> earlier about i j.
  Proof.
    unfold span_less, earlier, ps_info, si_full. cbn [fst snd]. intros H. apply orb_false_iff in H as [H1 H2].
    match goal with |- bytes_lt ?a ?b \/ _ => destruct (bytes_ltb a b) eqn:E end; [left; exact E|right].
    split; [apply bytes_ltb_total; assumption|]. apply andb_false_iff in H2 as [H2|H2]; [|lia].
    apply bytes_ltb_total in E; [|exact H1]. rewrite E in H2. unfold beqb in H2. rewrite bool_decide_eq_true_2 in H2 by reflexivity. discriminate H2.
  Qed.
  Lemma sorted_earlier l : StronglySorted (fun i j => span_less info j i = false) l -> StronglySorted (earlier about) l.
  Proof.
    induction 1 as [|x l _ IH Hx]; constructor; [exact IH|]. eapply Forall_impl; [exact Hx|]. intros y. apply less_earlier.
  Qed.
  Lemma kids_all i : all_with about (fun k => running sched k /\ parent_is sched k i) (kids i).
  Proof.
    split; [apply child_nodup|]. split.
    - intros k. rewrite (child_elem sched info mord Hw Hq Ho). unfold child. tauto.
    - apply sorted_earlier. unfold bag_children. apply isort_sorted; [intros x y z; apply span_less_negtrans|intros x y; apply span_less_asym].
  Qed.
  Lemma orphaned_iff i : running sched i -> (ps_orphaned c i = true <-> parent_finished sched i).
  Proof. intros Hr. unfold ps_orphaned. rewrite bool_decide_eq_true. apply (quiet_orphaned sched Hw Hq i Hr). Qed.
  Lemma tree_line fuel d i : running sched i -> line_of table short_del other about sched d i (told (d, tree fuel i)).
  Proof. intros Hr. destruct fuel; (unfold line_of; cbn; split_and!; try reflexivity; apply orphaned_iff, Hr). Qed.
  Lemma run_lt i : running sched i -> (i < N)%nat.
  Proof. intros (x & H). eapply lookup_lt_Some; exact H. Qed.

  Lemma concat_map_flat {A C D} (f : A -> list C) (g : C -> D) (h : A -> list D) l :
    (forall x, h x = map g (f x)) -> concat (map h l) = map g (flat_map f l).
  Proof using. clear. intros H. induction l as [|x l IH]; [reflexivity|]. cbn. rewrite map_app, IH, H. reflexivity. Qed.
  Lemma tree_block fuel : forall d i, running sched i -> (N - i <= fuel)%nat ->
    block table short_del other about sched d i (map told (below_at d (tree fuel i))).
  Proof.
    induction fuel as [|fuel IH]; intros d i Hr Hf; [apply run_lt in Hr; lia|].
    change (map told (below_at d (tree (S fuel) i))) with (told (d, tree (S fuel) i) :: map told (flat_map (below_at (S d)) (map (tree fuel) (kids i)))).
    rewrite flat_map_concat_map, map_map, concat_map, map_map.
    apply (block_of _ _ _ _ _ d i _ (kids i)); [apply tree_line, Hr|apply kids_all|]. apply Forall2_map_self. intros k Hk.
    apply (child_elem sched info mord Hw Hq Ho) in Hk. pose proof (child_lt sched Hw i k Hk). apply IH; [apply Hk|lia].
  Qed.
  Lemma roots_all : all_with about (fun i => running sched i /\ (no_parent sched i \/ parent_finished sched i)) (root_spans info mord s).
  Proof.
    destruct (root_spans_spec sched info mord Hw Hq Ho) as (H1 & H2 & H3). split; [exact H1|]. split; [exact H2|]. apply sorted_earlier, H3.
  Qed.
  Lemma text_page_ok fuel : (N <= fuel)%nat ->
    text_page table short_del other about sched (map told (flat_map (below_at 0) (ps_roots table short_del other about mord c fuel))).
  Proof.
    intros Hf. exists (root_spans info mord s), (map (fun i => map told (below_at 0 (tree fuel i))) (root_spans info mord s)).
    split; [exact roots_all|]. split.
    - apply Forall2_map_self. intros i Hi. apply roots_all in Hi as [Hi _]. apply tree_block; [exact Hi|lia].
    - unfold ps_roots. rewrite flat_map_concat_map, map_map, concat_map, map_map. reflexivity.
  Qed.

  (** The trees flattened, next to AllSpans. *)
  Definition made (i : nat) (r : rspan) : Prop := exists f, (N - i <= f)%nat /\ r = tree f i.
  Lemma Forall2_concat {A C} (R : A -> C -> Prop) ls ms : Forall2 (Forall2 R) ls ms -> Forall2 R (concat ls) (concat ms).
  Proof using. clear. induction 1; [constructor|]. cbn. apply Forall2_app; assumption. Qed.
  Lemma walk_made fuel : forall d i, running sched i -> (N - i <= fuel)%nat ->
    Forall2 (fun j e => made j (snd e)) (walk_span info mord s fuel i) (below_at d (tree fuel i)).
  Proof.
    induction fuel as [|fuel IH]; intros d i Hr Hf; [apply run_lt in Hr; lia|].
    change (below_at d (tree (S fuel) i)) with ((d, tree (S fuel) i) :: flat_map (below_at (S d)) (map (tree fuel) (kids i))).
    cbn [walk_span]. constructor; [exists (S fuel); split; [exact Hf|reflexivity]|].
    rewrite flat_map_concat_map, map_map. apply Forall2_concat. apply Forall2_fmap_l, Forall2_map_self. intros k Hk.
    apply (child_elem sched info mord Hw Hq Ho) in Hk. pose proof (child_lt sched Hw i k Hk). apply IH; [apply Hk|lia].
  Qed.
  Lemma all_made fuel : (N <= fuel)%nat ->
    Forall2 (fun j e => made j (snd e)) (all_spans info mord s fuel) (flat_map (below_at 0) (ps_roots table short_del other about mord c fuel)).
  Proof.
    intros Hf. unfold all_spans, ps_roots. rewrite flat_map_concat_map, map_map. apply Forall2_concat. apply Forall2_fmap_l, Forall2_map_self.
    intros i Hi. apply roots_all in Hi as [Hi _]. apply walk_made; [exact Hi|lia].
  Qed.
  Lemma below_snd r : forall d, map snd (below_at d r) = below r.
  Proof using.
    clear. revert r. fix IH 1. intros [id tid n a du o an kids] d. cbn. f_equal.
    induction kids as [|k kids IHk]; [reflexivity|]. cbn. rewrite map_app, IH, IHk. reflexivity.
  Qed.
  Lemma all_below fuel : (N <= fuel)%nat ->
    Forall2 made (all_spans info mord s fuel) (flat_map below (ps_roots table short_del other about mord c fuel)).
  Proof.
    intros Hf. pose proof (all_made fuel Hf) as H. replace (flat_map below (ps_roots table short_del other about mord c fuel)) with
      (map snd (flat_map (below_at 0) (ps_roots table short_del other about mord c fuel))); [apply Forall2_fmap_r, H|].
    generalize (ps_roots table short_del other about mord c fuel). clear. induction l as [|r l IH]; [reflexivity|]. cbn. rewrite map_app, below_snd, IH. reflexivity.
  Qed.
  Lemma all_running fuel : (N <= fuel)%nat -> the_running sched (all_spans info mord s fuel).
  Proof. exact (all_spans_spec sched info mord Hw Hq Ho fuel). Qed.
  Lemma lines_once fuel : (N <= fuel)%nat ->
    Forall2 (fun i l => exists d, line_of table short_del other about sched d i l) (all_spans info mord s fuel)
      (map told (flat_map (below_at 0) (ps_roots table short_del other about mord c fuel))).
  Proof.
    intros Hf. apply Forall2_fmap_r. pose proof (proj2 (all_running fuel Hf)) as Hr. pose proof (all_made fuel Hf) as H.
    apply Forall2_same_length_lookup. apply Forall2_same_length_lookup in H as [HL H]. split; [exact HL|]. intros k i [d r] Hi He.
    destruct (H k i (d, r) Hi He) as (f & _ & E). cbn in E. subst r. exists d. apply tree_line, Hr. eapply elem_of_list_lookup_2, Hi.
  Qed.
  Lemma made_elem fuel r : (N <= fuel)%nat -> r ∈ flat_map below (ps_roots table short_del other about mord c fuel) -> exists i, running sched i /\ made i r.
  Proof.
    intros Hf Hr. apply elem_of_list_lookup in Hr as (k & Hk). destruct (Forall2_lookup_r _ _ _ _ _ (all_below fuel Hf) Hk) as (i & Hi & M).
    exists i. split; [|exact M]. apply (all_running fuel Hf). eapply elem_of_list_lookup_2, Hi.
  Qed.
  Lemma elem_made fuel i : (N <= fuel)%nat -> running sched i -> exists r, r ∈ flat_map below (ps_roots table short_del other about mord c fuel) /\ made i r.
  Proof.
    intros Hf Hr. apply (all_running fuel Hf) in Hr. apply elem_of_list_lookup in Hr as (k & Hk). destruct (Forall2_lookup_l _ _ _ _ _ (all_below fuel Hf) Hk) as (r & Hi & M).
    exists r. split; [|exact M]. eapply elem_of_list_lookup_2, Hi.
  Qed.
  Lemma made_id i r : made i r -> r_id r = si_id (about i).
  Proof. intros (f & _ & ->). destruct f; reflexivity. Qed.
  Lemma made_kids i r : running sched i -> made i r -> exists f, r_kids r = map (tree f) (kids i).
  Proof. intros Hr (f & Hf & ->). destruct f as [|f]; [apply run_lt in Hr; lia|]. exists f. reflexivity. Qed.

  Lemma clear_all fuel : (N <= fuel)%nat -> (forall i, running sched i -> sound (about i) /\ unbroken table short_del other (about i)) ->
    Forall clear_span (flat_map below (ps_roots table short_del other about mord c fuel)).
  Proof.
    intros Hf H. apply Forall_forall. intros r Hr. apply (made_elem fuel r Hf) in Hr as (i & Hr & f & _ & ->).
    destruct (H i Hr) as ((A1 & A2 & A3 & A4 & A5) & B1 & B2 & B3 & B4). unfold an_id in A1. unfold int64 in *.
    assert (L : one_line (si_full (about i))).
    { unfold one_line, si_full. rewrite !elem_of_app. intros [E|[E|E]]; [exact (B1 E)| |exact (B2 E)]. vm_compute in E. inversion E as [|? ? ? E']. inversion E'. }
    destruct f; (cbn; unfold int64b; split_and!; try lia; assumption).
  Qed.
  Lemma ids_all fuel : (N <= fuel)%nat -> (forall i, running sched i -> an_id (si_id (about i))) ->
    Forall (fun r => an_id (r_id r)) (flat_map below (ps_roots table short_del other about mord c fuel)).
  Proof.
    intros Hf H. apply Forall_forall. intros r Hr. apply (made_elem fuel r Hf) in Hr as (i & Hr & M). rewrite (made_id i r M). apply H, Hr.
  Qed.
  Lemma nodes_ok fuel ns : (N <= fuel)%nat ->
    Forall2 shows_text (map span_node (flat_map below (ps_roots table short_del other about mord c fuel))) ns ->
    Forall2 (node_of table short_del other about sched) (all_spans info mord s fuel) ns.
  Proof.
    intros Hf H. apply (Forall2_fmap_l span_node) in H. pose proof (all_below fuel Hf) as M. pose proof (proj2 (all_running fuel Hf)) as Hr.
    apply Forall2_same_length_lookup. apply Forall2_same_length_lookup in H as [HL H]. apply Forall2_same_length_lookup in M as [ML M].
    split; [exact (eq_trans ML HL)|]. intros k i n Hi Hn.
    assert (X : exists r, flat_map below (ps_roots table short_del other about mord c fuel) !! k = Some r) by (apply lookup_lt_is_Some; rewrite <- ML; eapply lookup_lt_Some; exact Hi).
    destruct X as (r & Hk). specialize (H k r n Hk Hn). destruct (M k i r Hi Hk) as (f & _ & ->). 
    assert (Ri : running sched i) by (apply Hr; eapply elem_of_list_lookup_2, Hi).
    destruct f; (eexists; split; [|exact H]; exists (ps_orphaned c i); split; [apply orphaned_iff, Ri|reflexivity]).
  Qed.
  Lemma edges_ok fuel a b : (N <= fuel)%nat ->
    (a, b) ∈ flat_map span_edges (flat_map below (ps_roots table short_del other about mord c fuel)) <->
    exists p k, running sched p /\ running sched k /\ parent_is sched k p /\ a = f_name (si_id (about p)) /\ b = f_name (si_id (about k)).
  Proof.
    intros Hf. rewrite elem_of_list_In, in_flat_map. split.
    - intros (r & Hr & E). apply elem_of_list_In in Hr. destruct (made_elem fuel r Hf Hr) as (p & Rp & M).
      unfold span_edges in E. destruct (made_kids p r Rp M) as (f & K). rewrite K, map_map in E. apply in_map_iff in E as (k & E & Hk). apply elem_of_list_In in Hk.
      apply kids_all in Hk as [Rk Pk]. exists p, k. rewrite (made_id p r M) in E. apply pair_equal_spec in E as [<- <-]. split_and!; try assumption; try reflexivity.
      destruct f; reflexivity.
    - intros (p & k & Rp & Rk & Pk & -> & ->). destruct (elem_made fuel p Hf Rp) as (r & Hr & M). exists r. split; [apply elem_of_list_In, Hr|].
      unfold span_edges. destruct (made_kids p r Rp M) as (f & K). rewrite K, map_map, (made_id p r M). apply in_map_iff. exists k.
      split; [destruct f; reflexivity|]. apply elem_of_list_In, kids_all. split; assumption.
  Qed.
  Lemma parent_iff i v : ps_parent about c i = Some v <->
    si_remote (about i) = Some v \/ si_remote (about i) = None /\ exists p, parent_is sched i p /\ v = si_id (about p).
  Proof using.
    clear. unfold ps_parent, parent_is. destruct (si_remote (about i)) as [r|].
    - split; [auto|]. intros [E|[E _]]; [exact E|discriminate E].
    - split.
      + destruct (threads c !! i) as [t|]; [|discriminate]. destruct (sc_parent (st_call t)) as [p|] eqn:E; [|discriminate]. intros H. apply Some_inj in H.
        right. split; [reflexivity|]. exists p. split; [|symmetry; exact H]. exists t. split; [reflexivity|exact E].
      + intros [E|[_ (p & (t & Ht & Hp) & ->)]]; [discriminate E|]. rewrite Ht, Hp. reflexivity.
  Qed.
  Lemma jspan_proper i : (forall j, sound (about j)) -> proper_span (ps_jspan about c i) /\ int64 (si_dur (about i)).
  Proof using.
    clear. intros H. assert (I : forall j, int64 (si_id (about j))) by (intros j; destruct (H j) as (A & _); unfold an_id in A; unfold int64; lia).
    destruct (H i) as (A1 & A2 & A3 & A4 & A5). split; [|exact A4]. unfold proper_span. cbn. split_and!; try assumption; [apply I|].
    intros p Hp. apply parent_iff in Hp as [Hp|(_ & q & _ & ->)]; [apply A5, Hp|apply I].
  Qed.
  Lemma object_ok i j : running sched i -> span_object table short_del other (ps_jspan about c i, si_dur (about i)) j -> object_of table short_del other about sched i j.
  Proof.
    intros Hr H. exists (ps_jspan about c i). split; [exact H|]. split_and!; try reflexivity; [apply orphaned_iff, Hr|]. intros v. apply parent_iff.
  Qed.
End proofs.

(** One text through the buffer. *)
Lemma served text : serve_report (fun _ => None) [text] None = (200, text).
Proof.
  unfold serve_report. pose proof (buffered_spec (fun _ => None) (Sink [] 0) [text]) as H. cbn zeta in H.
  change (bufio_flush (fun _ => None) (fold_left (bufio_fprint (fun _ => None)) [text] (Buf (Sink [] 0) [] None))) with (buffered (fun _ => None) (Sink [] 0) [text]).
  destruct (bf_err (buffered (fun _ => None) (Sink [] 0) [text])) as [e|].
  - destruct H as [(k & _ & F & _) _]. exfalso. apply F. reflexivity.
  - rewrite H. cbn [sk_out concat app]. rewrite app_nil_r. reflexivity.
Qed.
