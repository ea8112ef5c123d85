(** Proofs about the graphs of SpansDot and FuncsDot. *)
From Verif Require Import Base BaseProofs PresentModel PresentSpec PresentProofs SvgModel SvgSpec SvgNumProofs ArgsSpec ReportModel ReportSpec ReportProofs.
Local Open Scope Z_scope.
Local Arguments B : simpl never.

Fixpoint rspan_ind' (P : rspan -> Prop) (H : forall id tid fname args dur orph annots kids, Forall P kids -> P (RSpan id tid fname args dur orph annots kids)) (r : rspan) : P r :=
  match r with
  | RSpan id tid fname args dur orph annots kids =>
      H id tid fname args dur orph annots kids ((fix go l : Forall P l := match l with [] => Forall_nil_2 P | k :: l' => Forall_cons_2 P k l' (rspan_ind' P H k) (go l') end) kids)
  end.

(** ** Lines *)
Lemma unlines_app a b : unlines (a ++ b) = unlines a ++ unlines b.
Proof. apply flat_map_app. Qed.
Lemma unlines_cons x l : unlines (x :: l) = x ++ [newline] ++ unlines l.
Proof. unfold unlines. cbn [flat_map]. rewrite <- app_assoc. reflexivity. Qed.
Lemma unlines_map {A} (f : A -> bytes) l : unlines (map f l) = concat (map (fun x => f x ++ [newline]) l).
Proof. unfold unlines. rewrite flat_map_concat_map, map_map. reflexivity. Qed.
Lemma dist_unlines d indent : format_dist d indent = unlines (dist_lines indent d).
Proof.
  unfold format_dist, dist_lines. rewrite map_app, unlines_app, unlines_map. f_equal.
  - f_equal. apply map_ext. intros e. unfold dist_line, colon. rewrite <- !app_assoc. reflexivity.
  - cbn [map]. rewrite !unlines_cons. change (unlines []) with (@nil ascii). unfold dist_line, colon. cbn [fst snd]. rewrite <- !app_assoc, ?app_nil_r. reflexivity.
Qed.

(** ** SpansDot *)
Fixpoint span_stmts (r : rspan) : list dstmt :=
  match r with
  | RSpan id _ _ _ _ _ _ kids =>
      DNode (f_name id) [(B "label", escape_dot (unlines (label_lines r)))] :: flat_map (fun k => span_stmts k ++ [DEdge (f_name id) (f_name (r_id k))]) kids
  end.
Lemma view_id r : v_id (span_view r) = r_id r.
Proof. destruct r; reflexivity. Qed.
Lemma lexes_flat {A} (f : A -> bytes) (g : A -> list dtoken) l : (forall x, x ∈ l -> lexes (f x) (g x)) -> lexes (concat (map f l)) (flat_map g l).
Proof.
  induction l as [|x l IH]; intros H; [apply lexes_nil|]. cbn [map concat flat_map]. apply lexes_app; [apply H; left|]. apply IH. intros y Hy. apply H. right. exact Hy.
Qed.
Lemma concat_flat {A} (f : A -> list bytes) l : concat (flat_map f l) = concat (map (fun x => concat (f x)) l).
Proof. induction l as [|x l IH]; [reflexivity|]. cbn [flat_map map concat]. rewrite concat_app, IH. reflexivity. Qed.
Lemma flat_map_flat {A C D} (f : A -> list C) (g : C -> list D) l : flat_map g (flat_map f l) = flat_map (fun x => flat_map g (f x)) l.
Proof. induction l as [|x l IH]; [reflexivity|]. cbn [flat_map]. rewrite flat_map_app, IH. reflexivity. Qed.
Lemma span_label_text id tid fname args dur orph annots kids :
  B " f" ++ dec id ++ B " [label=" ++ [quote] ++ escape_dot (unlines (label_lines (RSpan id tid fname args dur orph annots kids))) =
  dot_head id fname args (duration_text dur) orph ++ concat (map dot_annot annots).
Proof.
  unfold dot_head. rewrite annots_escape, <- !app_assoc. do 4 f_equal. rewrite <- escape_app. f_equal. cbn [label_lines]. rewrite !unlines_app, unlines_map. cbn [r_call].
  assert (M : map (fun x : bytes * bytes => colon (fst x) (snd x) ++ [newline]) annots = map (fun a => fst a ++ B ": " ++ snd a ++ [newline]) annots)
    by (apply map_ext; intros a; unfold colon; rewrite <- !app_assoc; reflexivity).
  rewrite M. destruct orph; rewrite !unlines_cons; change (unlines []) with (@nil ascii); unfold colon; rewrite <- !app_assoc; cbn [app]; rewrite <- ?app_assoc; reflexivity.
Qed.
Lemma span_lexes r : Forall (fun x => an_id (r_id x)) (below r) -> lexes (concat (dot_chunks (span_view r))) (flat_map toks (span_stmts r)).
Proof.
  induction r as [id tid fname args dur orph annots kids IH] using rspan_ind'. intros Hi. cbn [below] in Hi. apply Forall_cons in Hi as [Hid Hk]. cbn [r_id] in Hid.
  assert (E : concat (dot_chunks (span_view (RSpan id tid fname args dur orph annots kids))) =
    (B " " ++ ["f"%char] ++ dec id ++ B " [label=" ++ [quote] ++ escape_dot (unlines (label_lines (RSpan id tid fname args dur orph annots kids))) ++ dot_close) ++
    concat (map (fun k => concat (dot_chunks (span_view k)) ++ (B " " ++ ["f"%char] ++ dec id ++ B " -> " ++ ["f"%char] ++ dec (r_id k) ++ B ";" ++ [newline])) kids)).
  { pose proof (span_label_text id tid fname args dur orph annots kids) as L. cbn [span_view dot_chunks concat]. rewrite concat_app, concat_app. cbn [concat]. rewrite app_nil_r.
    rewrite !(app_assoc (dot_head _ _ _ _ _)). rewrite <- L. rewrite concat_flat, map_map. rewrite <- !app_assoc. change (B " f" ++ ?y) with (B " " ++ ["f"%char] ++ y). do 6 f_equal.
    f_equal. f_equal. apply map_ext. intros k. rewrite concat_app. cbn [concat]. rewrite app_nil_r, view_id. f_equal. }
  rewrite E. cbn [span_stmts flat_map]. apply lexes_app.
  - exact (node_lexes "f" id _ eq_refl eq_refl Hid).
  - rewrite flat_map_flat. apply (lexes_flat (fun k => concat (dot_chunks (span_view k)) ++ _) (fun k => flat_map toks (span_stmts k ++ _))). intros k Hk'. rewrite flat_map_app.
    rewrite Forall_forall in IH. 
    assert (Hb : Forall (fun x => an_id (r_id x)) (below k)).
    { apply Forall_forall. intros x Hx. rewrite Forall_forall in Hk. apply Hk. apply elem_of_list_In, in_flat_map. exists k. split; apply elem_of_list_In; assumption. }
    apply lexes_app; [apply (IH k Hk' Hb)|]. cbn [flat_map]. rewrite app_nil_r. apply edge_lexes; try reflexivity; [exact Hid|].
    rewrite Forall_forall in Hb. apply Hb. destruct k. left.
Qed.
Lemma f_keyword id : an_id id -> keyword (f_name id) = false.
Proof. intros H. exact (keyword_digit "f" id eq_refl H). Qed.
Lemma entry_keyword id : an_id id -> keyword (entry_name id) = false.
Proof. intros H. exact (keyword_digit "r" id eq_refl H). Qed.
Lemma span_good r : Forall (fun x => an_id (r_id x)) (below r) -> Forall good_stmt (span_stmts r).
Proof.
  induction r as [id tid fname args dur orph annots kids IH] using rspan_ind'. intros Hi. cbn [below] in Hi. apply Forall_cons in Hi as [Hid Hk]. cbn [r_id] in Hid.
  cbn [span_stmts]. apply Forall_cons_2; [split; [apply f_keyword, Hid|eexists; reflexivity]|].
  apply Forall_forall. intros s Hs. apply elem_of_list_In, in_flat_map in Hs as (k & Hk' & Hs). apply elem_of_list_In in Hk'.
  assert (Hb : Forall (fun x => an_id (r_id x)) (below k)).
  { apply Forall_forall. intros x Hx. rewrite Forall_forall in Hk. apply Hk. apply elem_of_list_In, in_flat_map. exists k. split; apply elem_of_list_In; assumption. }
  apply in_app_iff in Hs as [Hs|[<-|[]]].
  - rewrite Forall_forall in IH. specialize (IH k Hk' Hb). rewrite Forall_forall in IH. apply IH, elem_of_list_In, Hs.
  - split; apply f_keyword; [exact Hid|]. rewrite Forall_forall in Hb. apply Hb. destruct k. left.
Qed.
Lemma nodes_app a b : dot_nodes (a ++ b) = dot_nodes a ++ dot_nodes b.
Proof. induction a as [|[] a IH]; cbn; [reflexivity|..]; fold (dot_nodes (a ++ b)) (dot_nodes a); rewrite ?IH; reflexivity. Qed.
Lemma edges_app a b : dot_edges (a ++ b) = dot_edges a ++ dot_edges b.
Proof. induction a as [|[] a IH]; cbn; [reflexivity|..]; fold (dot_edges (a ++ b)) (dot_edges a); rewrite ?IH; reflexivity. Qed.
Lemma Forall2_flat {A C D} (R : C -> D -> Prop) (f : A -> list C) (g : A -> list D) l : (forall x, x ∈ l -> Forall2 R (f x) (g x)) -> Forall2 R (flat_map f l) (flat_map g l).
Proof. induction l as [|x l IH]; intros H; [constructor|]. cbn [flat_map]. apply Forall2_app; [apply H; left|]. apply IH. intros y Hy. apply H. right. exact Hy. Qed.
Lemma nodes_flat {A} (f : A -> list dstmt) l : dot_nodes (flat_map f l) = flat_map (fun x => dot_nodes (f x)) l.
Proof. induction l as [|x l IH]; [reflexivity|]. cbn [flat_map]. rewrite nodes_app, IH. reflexivity. Qed.
Lemma edges_flat {A} (f : A -> list dstmt) l : dot_edges (flat_map f l) = flat_map (fun x => dot_edges (f x)) l.
Proof. induction l as [|x l IH]; [reflexivity|]. cbn [flat_map]. rewrite edges_app, IH. reflexivity. Qed.
Lemma map_flat {A C D} (f : C -> D) (g : A -> list C) l : map f (flat_map g l) = flat_map (fun x => map f (g x)) l.
Proof. induction l as [|x l IH]; [reflexivity|]. cbn [flat_map]. rewrite map_app, IH. reflexivity. Qed.
Lemma span_nodes_ok r : Forall2 shows_text (map span_node (below r)) (dot_nodes (span_stmts r)).
Proof.
  induction r as [id tid fname args dur orph annots kids IH] using rspan_ind'. cbn [below span_stmts map].
  change (dot_nodes (?s :: ?l)) with (dot_nodes [s] ++ dot_nodes l). cbn [dot_nodes omap list_omap app]. apply Forall2_cons_2.
  - eexists. split; [reflexivity|]. apply unlabel_escape.
  - rewrite nodes_flat, map_flat. apply Forall2_flat. intros k Hk. rewrite nodes_app. cbn [dot_nodes omap list_omap]. rewrite app_nil_r. rewrite Forall_forall in IH. apply IH, Hk.
Qed.
Lemma perm_flat {A C} (f g : A -> list C) l : (forall x, x ∈ l -> f x ≡ₚ g x) -> flat_map f l ≡ₚ flat_map g l.
Proof. induction l as [|x l IH]; intros H; [reflexivity|]. cbn [flat_map]. rewrite (H x) by left. rewrite IH; [reflexivity|]. intros y Hy. apply H. right. exact Hy. Qed.
Lemma perm_flat_app {A C} (f g : A -> list C) l : flat_map (fun x => f x ++ g x) l ≡ₚ flat_map g l ++ flat_map f l.
Proof.
  induction l as [|x l IH]; [reflexivity|]. cbn [flat_map]. rewrite IH, <- !app_assoc. rewrite (Permutation_app_comm (f x)), <- !app_assoc. apply Permutation_app_head.
  apply Permutation_app_head. apply Permutation_app_comm.
Qed.
Lemma span_edges_ok r : dot_edges (span_stmts r) ≡ₚ flat_map span_edges (below r).
Proof.
  induction r as [id tid fname args dur orph annots kids IH] using rspan_ind'. cbn [below span_stmts flat_map].
  change (dot_edges (?s :: ?l)) with (dot_edges [s] ++ dot_edges l). cbn [dot_edges omap list_omap app]. rewrite edges_flat.
  rewrite (perm_flat _ (fun k => flat_map span_edges (below k) ++ [(f_name id, f_name (r_id k))])).
  - rewrite perm_flat_app. unfold span_edges at 2. cbn [r_id r_kids]. rewrite flat_map_flat. apply Permutation_app_tail. rewrite flat_map_concat_map.
    clear. induction kids as [|k kids IHk]; [reflexivity|]. cbn [map concat app]. apply Permutation_cons; [reflexivity|exact IHk].
  - intros k Hk. rewrite edges_app. cbn [dot_edges omap list_omap]. rewrite Forall_forall in IH. rewrite (IH k Hk). reflexivity.
Qed.
Lemma spans_dot_read roots : Forall (fun x => an_id (r_id x)) (flat_map below roots) ->
  exists l, read_dot (concat (spans_dot_chunks (map span_view roots))) = Some l /\
    Forall2 shows_text (map span_node (flat_map below roots)) (dot_nodes l) /\ dot_edges l ≡ₚ flat_map span_edges (flat_map below roots).
Proof.
  intros H. set (l := flat_map span_stmts roots). exists (DDefault [(B "shape", B "box")] :: l).
  assert (H' : forall r, r ∈ roots -> Forall (fun x => an_id (r_id x)) (below r)).
  { intros r Hr. apply Forall_forall. intros x Hx. rewrite Forall_forall in H. apply H. apply elem_of_list_In, in_flat_map. exists r. split; apply elem_of_list_In; assumption. }
  split; [|split].
  - unfold spans_dot_chunks. cbn [concat]. rewrite concat_app. cbn [concat]. rewrite app_nil_r. apply graph_read.
    + rewrite flat_map_concat_map, map_map, <- flat_map_concat_map. rewrite concat_flat. unfold l. rewrite flat_map_flat.
      apply (lexes_flat (fun x => concat (dot_chunks (span_view x)))). intros r Hr. apply span_lexes, H', Hr.
    + apply Forall_forall. intros s Hs. apply elem_of_list_In, in_flat_map in Hs as (r & Hr & Hs). apply elem_of_list_In in Hr, Hs. pose proof (span_good r (H' r Hr)) as G.
      rewrite Forall_forall in G. apply G, Hs.
  - change (dot_nodes (DDefault ?a :: l)) with (dot_nodes l). unfold l. rewrite nodes_flat, map_flat. apply Forall2_flat. intros r _. apply span_nodes_ok.
  - change (dot_edges (DDefault ?a :: l)) with (dot_edges l). unfold l. rewrite edges_flat, flat_map_flat. apply perm_flat. intros r _. apply span_edges_ok.
Qed.

(** ** FuncsDot *)
Lemma wrap_id v : int64b v -> wrap64 v = v.
Proof. unfold int64b, wrap64. intros H. rewrite Z.mod_small; lia. Qed.
Lemma errors_fold l : forall n, 0 <= n -> Forall (fun e : bytes * Z => 0 <= snd e) l -> n + fold_right Z.add 0 (map snd l) < 2 ^ 63 ->
  fold_left (fun n e => wrap64 (n + snd e)) l n = n + fold_right Z.add 0 (map snd l) /\ 0 <= fold_right Z.add 0 (map snd l).
Proof.
  induction l as [|e l IH]; intros n Hn H Hs; [cbn; lia|]. apply Forall_cons in H as [He H]. cbn [map fold_right fold_left] in *.
  assert (P : 0 <= fold_right Z.add 0 (map snd l)). { clear - H. induction H; cbn; [lia|]. cbn in *. lia. }
  rewrite wrap_id by (unfold int64b; lia). destruct (IH (n + snd e)) as [E _]; [lia|exact H|lia|]. rewrite E. lia.
Qed.
Lemma errors_total f : clear_counts f -> total_errors f = errors_sum f /\ 0 <= errors_sum f.
Proof. intros (H1 & H2 & H3). unfold total_errors, errors_sum in *. destruct (errors_fold (rf_errors f) 0) as [E P]; [lia|exact H1|lia|]. rewrite E. lia. Qed.
Lemma counts_ok f : clear_counts f -> counts_text f = counts_line f.
Proof.
  intros H. unfold counts_text, counts_line, colon. rewrite (proj1 (errors_total f H)). cbn [map fst snd join]. rewrite <- !app_assoc. reflexivity.
Qed.
Definition func_stmts (f : rfunc) : list dstmt :=
  DNode (f_name (rf_id f)) [(B "label", escape_dot (unlines (func_label_lines f)))] ::
  flat_map (fun p => match p with
                     | Some q => [DEdge (f_name q) (f_name (rf_id f))]
                     | None => [DNode (entry_name (rf_id f)) [(B "label", escape_dot (B "entry"))]; DEdge (entry_name (rf_id f)) (f_name (rf_id f))]
                     end) (rf_parents f).
Lemma nonempty_concat b : concat (nonempty_chunk b) = b.
Proof. destruct b; [reflexivity|]. cbn. rewrite app_nil_r. reflexivity. Qed.
Lemma opt_concat o g : concat (opt_chunk o g) = match o with Some t => g t | None => [] end.
Proof. destruct o; [cbn; rewrite app_nil_r|]; reflexivity. Qed.
Lemma func_concat f : clear_counts f ->
  concat (func_dot_chunks (func_view f)) =
  (B " " ++ ["f"%char] ++ dec (rf_id f) ++ B " [label=" ++ [quote] ++ escape_dot (unlines (func_label_lines f)) ++ dot_close) ++ concat (map (dot_parent (rf_id f)) (rf_parents f)).
Proof.
  intros H. unfold func_dot_chunks. cbn [concat func_view fv_id fv_name fv_counts fv_errors fv_success fv_failure fv_parents]. rewrite !concat_app, nonempty_concat, !opt_concat.
  rewrite (counts_ok f H), (proj1 (errors_total f H)). rewrite wrap_id by (destruct (errors_total f H); destruct H as (_ & ? & ?); unfold int64b; lia).
  assert (E : concat (map err_dot (rf_errors f)) = escape_dot (unlines (map (fun e => colon (B "error " ++ fst e) (dec (snd e))) (rf_errors f)))).
  { rewrite unlines_map, escape_concat, map_map. f_equal. apply map_ext. intros e. unfold err_dot, colon. rewrite <- !app_assoc. reflexivity. }
  rewrite E. unfold func_label_lines. rewrite !unlines_app, !escape_app. cbn [concat]. rewrite app_nil_r. rewrite <- !app_assoc. change (B " f" ++ ?y) with (B " " ++ ["f"%char] ++ y). do 5 f_equal.
  rewrite !unlines_cons. change (unlines []) with (@nil ascii). rewrite app_nil_r, !escape_app, <- !app_assoc. do 5 f_equal. f_equal; [|f_equal].
  - destruct (0 <? rf_success f); [|reflexivity]. rewrite unlines_cons, dist_unlines, !escape_app. reflexivity.
  - destruct (0 <? errors_sum f + rf_panics f); [|reflexivity]. rewrite unlines_cons, dist_unlines, !escape_app. reflexivity.
Qed.
Lemma func_lexes f : clear_counts f -> ids_ok f -> lexes (concat (func_dot_chunks (func_view f))) (flat_map toks (func_stmts f)).
Proof.
  intros Hc [Hi Hp]. rewrite (func_concat f Hc). cbn [func_stmts flat_map]. apply lexes_app; [exact (node_lexes "f" (rf_id f) _ eq_refl eq_refl Hi)|].
  rewrite flat_map_flat. apply lexes_flat. intros [q|] Hq; cbn [flat_map dot_parent]; rewrite app_nil_r.
  - exact (edge_lexes "f" "f" q (rf_id f) eq_refl eq_refl eq_refl eq_refl (Hp q Hq) Hi).
  - pose proof (lexes_app _ _ _ _ (node_lexes "r" (rf_id f) (B "entry") eq_refl eq_refl Hi) (edge_lexes "r" "f" (rf_id f) (rf_id f) eq_refl eq_refl eq_refl eq_refl Hi Hi)) as L.
    change (escape_dot (B "entry")) with (B "entry") in *. cbn [toks]. unfold dot_close in L. rewrite <- !app_assoc in L. rewrite <- ?app_assoc. exact L.
Qed.
Lemma func_good f : ids_ok f -> Forall good_stmt (func_stmts f).
Proof.
  intros [Hi Hp]. apply Forall_cons_2; [split; [apply f_keyword, Hi|eexists; reflexivity]|]. apply Forall_forall. intros s Hs. apply elem_of_list_In, in_flat_map in Hs as ([q|] & Hq & Hs).
  - destruct Hs as [<-|[]]. split; apply f_keyword; [apply Hp, elem_of_list_In, Hq|exact Hi].
  - destruct Hs as [<-|[<-|[]]]; [split; [apply entry_keyword, Hi|eexists; reflexivity]|split; [apply entry_keyword, Hi|apply f_keyword, Hi]].
Qed.
Lemma func_nodes_ok f : Forall2 shows_text (func_nodes f) (dot_nodes (func_stmts f)).
Proof.
  unfold func_nodes, func_stmts. change (dot_nodes (?s :: ?l)) with (dot_nodes [s] ++ dot_nodes l). cbn [dot_nodes omap list_omap app]. apply Forall2_cons_2; [eexists; split; [reflexivity|apply unlabel_escape]|].
  rewrite nodes_flat. induction (rf_parents f) as [|[q|] l IH]; [constructor| |].
  - cbn [flat_map dot_nodes omap list_omap app]. exact IH.
  - cbn [flat_map dot_nodes omap list_omap app]. apply Forall2_cons_2; [eexists; split; [reflexivity|apply unlabel_escape]|exact IH].
Qed.
Lemma func_edges_ok f : dot_edges (func_stmts f) = func_edges f.
Proof.
  unfold func_edges, func_stmts. change (dot_edges (?s :: ?l)) with (dot_edges [s] ++ dot_edges l). cbn [dot_edges omap list_omap app].
  rewrite edges_flat. induction (rf_parents f) as [|[q|] l IH]; [reflexivity|..]; cbn [flat_map dot_edges omap list_omap app map]; f_equal; exact IH.
Qed.
Lemma funcs_dot_read fs : Forall (fun f => clear_counts f /\ ids_ok f) fs ->
  exists l, read_dot (concat (funcs_dot_chunks (map func_view fs))) = Some l /\
    Forall2 shows_text (flat_map func_nodes fs) (dot_nodes l) /\ dot_edges l = flat_map func_edges fs.
Proof.
  intros H. set (l := flat_map func_stmts fs). exists (DDefault [(B "shape", B "box")] :: l). rewrite Forall_forall in H. split; [|split].
  - unfold funcs_dot_chunks. cbn [concat]. rewrite concat_app. cbn [concat]. rewrite app_nil_r. apply graph_read.
    + rewrite flat_map_concat_map, map_map, <- flat_map_concat_map. rewrite concat_flat. unfold l. rewrite flat_map_flat.
      apply (lexes_flat (fun x => concat (func_dot_chunks (func_view x)))). intros f Hf. apply func_lexes; apply H, Hf.
    + apply Forall_forall. intros s Hs. apply elem_of_list_In, in_flat_map in Hs as (f & Hf & Hs). apply elem_of_list_In in Hf, Hs. pose proof (func_good f (proj2 (H f Hf))) as G.
      rewrite Forall_forall in G. apply G, Hs.
  - change (dot_nodes (DDefault ?a :: l)) with (dot_nodes l). unfold l. rewrite nodes_flat. apply Forall2_flat. intros f _. apply func_nodes_ok.
  - change (dot_edges (DDefault ?a :: l)) with (dot_edges l). unfold l. rewrite edges_flat. clear. induction fs as [|f fs IH]; [reflexivity|]. cbn [flat_map]. rewrite func_edges_ok, IH. reflexivity.
Qed.
(** ** Names of nodes *)
Lemma nodes_names roots ns : Forall2 shows_text (map span_node (flat_map below roots)) ns -> map fst ns = map (fun r => f_name (r_id r)) (flat_map below roots).
Proof.
  generalize (flat_map below roots) as rs. intros rs. revert ns. induction rs as [|r rs IH]; intros ns H; cbn [map] in H.
  - apply Forall2_nil_inv_l in H. subst ns. reflexivity.
  - apply Forall2_cons_inv_l in H as (n & ns' & (label & -> & _) & H & ->). cbn [map fst span_node]. rewrite (IH ns' H). reflexivity.
Qed.
Lemma self_below r : In r (below r).
Proof. destruct r. left. reflexivity. Qed.
Lemma kid_in_below t : forall r k, In r (below t) -> In k (r_kids r) -> In k (below t).
Proof.
  induction t as [id tid fname args dur orph annots kids IH] using rspan_ind'. intros r k Hr Hk. cbn [below] in Hr. destruct Hr as [<-|Hr]; cbn [below].
  - cbn [r_kids] in Hk. right. apply in_flat_map. exists k. split; [exact Hk|apply self_below].
  - apply in_flat_map in Hr as (x & Hx & Hr). right. apply in_flat_map. exists x. split; [exact Hx|]. rewrite Forall_forall in IH. apply elem_of_list_In in Hx. exact (IH x Hx r k Hr Hk).
Qed.
Lemma kid_below roots r k : In r (flat_map below roots) -> In k (r_kids r) -> In k (flat_map below roots).
Proof. intros Hr Hk. apply in_flat_map in Hr as (t & Ht & Hr). apply in_flat_map. exists t. split; [exact Ht|exact (kid_in_below t r k Hr Hk)]. Qed.
Lemma f_names_distinct ids : Forall an_id ids -> NoDup ids -> NoDup (map f_name ids).
Proof.
  intros H N. induction N as [|v l Hv N IH]; [constructor|]. apply Forall_cons in H as [Hi H]. cbn [map]. constructor; [|apply IH, H].
  intros F. apply elem_of_list_In, in_map_iff in F as (w & E & Hw). apply elem_of_list_In in Hw. apply Hv. rewrite Forall_forall in H. specialize (H w Hw).
  unfold f_name in E. apply app_inv_head in E. apply dec_inj in E; [subst w; exact Hw|..]; unfold an_id in *; lia.
Qed.
