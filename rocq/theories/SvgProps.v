(** Properties of the SVG text of traces: C73-C76. *)
From Verif Require Import Base BaseProofs PresentModel LayoutModel SvgModel SvgSpec SvgProofs SvgNumProofs SvgDocProofs SvgValProofs.
Local Open Scope Z_scope.
Local Arguments B : simpl never.

(** The text is a well-formed SVG file with one group of elements for every span, in the order
    of their start, which shows the name, the arguments, the duration and the time since the
    first start. *)
Theorem C73_document :
  exists defs, forall zero_time fuel order spans sorted doc, spans_to_svg zero_time fuel order spans sorted = Some doc ->
    exists height es, pictures defs doc height es /\
      Forall2 (describes (match sorted with f :: _ => sp_start (vs_span f) | [] => zero_time end)) sorted es.
Proof.
  destruct svg_spec as [defs H]. exists defs. intros zero_time fuel order spans sorted doc E.
  destruct (H _ _ _ _ _ _ E) as (w & rows & es & _ & Hp & _ & Hes). exists (graph_height rows), es. split; [exact Hp|].
  eapply Forall2_impl; [exact Hes|]. intros s e (Hd & _). exact Hd.
Qed.
Print Assumptions C73_document.

(** Names and arguments of text that XML can carry are shown exactly. *)
Theorem C73_exact : forall s t, xml_text s -> shows s t -> t = s.
Proof. exact shows_exact. Qed.
Print Assumptions C73_exact.

(** Numbers in the text can be read back. *)
Theorem C73_numbers : forall v, - 2 ^ 63 <= v < 2 ^ 63 -> read_dec (dec v) = Some v.
Proof. intros v H. apply dec_read. lia. Qed.
Print Assumptions C73_numbers.

(** A document is made unless there is no layout, or all spans start and finish at the same
    instant. *)
Theorem C73_total :
  forall zero_time fuel order spans sorted,
    layout zero_time fuel order (map vs_span sorted) <> None ->
    wrap64 (max_end zero_time (map vs_span spans) - min_start zero_time (map vs_span spans)) <> 0 ->
    spans_to_svg zero_time fuel order spans sorted <> None.
Proof.
  intros zero_time fuel order spans sorted Hl Hw. unfold spans_to_svg. destruct (layout _ _ _ _) as [[w rows]|]; [|contradiction].
  assert (T : forall t, exists x, time_to_x (min_start zero_time (map vs_span spans)) (max_end zero_time (map vs_span spans)) t = Some x).
  { intros t. unfold time_to_x. apply Z.eqb_neq in Hw. cbv zeta. rewrite Hw. eexists. reflexivity. }
  assert (V : forall s, exists v, span_values zero_time spans sorted w s = Some v).
  { intros s. unfold span_values. cbv zeta. unfold bar_x.
    destruct (T (sp_start (vs_span s))) as [x ->]. destruct (T (sp_finish (vs_span s))) as [y ->].
    destruct (sp_parent (vs_span s)) as [p|]; [|eexists; reflexivity]. destruct (by_id spans p) as [ps|]; [|eexists; reflexivity].
    destruct (T (sp_start (vs_span ps))) as [z ->]. eexists. reflexivity. }
  enough (G : forall l, exists vs, all_some (map (span_values zero_time spans sorted w) l) = Some vs).
  { destruct (G sorted) as [vs ->]. discriminate. }
  induction l as [|s l [vs IH]]; [eexists; reflexivity|]. destruct (V s) as [v Ev]. cbn [map all_some]. rewrite Ev, IH. eexists. reflexivity.
Qed.
Print Assumptions C73_total.

Definition ex_err : terr := TErr false (Some (Some (TErr true None None))) None.
Definition ex_svg : list vspan :=
  [VSpan (FSpan 1 None 100 1600) (B "pkg.(*T).f") [B """a<b"""; B "7"] None false;
   VSpan (FSpan 2 (Some 1) 300 800) (B "pkg.g") [] (Some ex_err) false].
Definition ex_doc : bytes := default [] (spans_to_svg 0 5 [1; 2] ex_svg ex_svg).
Example C73_ex : spans_to_svg 0 5 [1; 2] ex_svg ex_svg = Some ex_doc /\ ex_doc <> [].
Proof. split; [vm_compute; reflexivity|]. intros H. apply (f_equal (@length ascii)) in H. vm_compute in H. discriminate. Qed.
Example C73_exact_ex : xml_text (B """a<b""" ++ utf8 8364).
Proof.
  apply xml_text_app; [apply ascii_text; vm_compute; reflexivity|]. exists [8364]. split; [constructor; [unfold xml_code; lia|constructor]|]. cbn [map concat]. rewrite app_nil_r. reflexivity.
Qed.
Example C73_total_ex :
  layout 0 5 [1; 2] (map vs_span ex_svg) <> None /\ wrap64 (max_end 0 (map vs_span ex_svg) - min_start 0 (map vs_span ex_svg)) <> 0.
Proof. split; intros H; vm_compute in H; discriminate. Qed.
Example C73_escape_ex : escape_text (B "a<b" ++ [ascii_of_N 255; ascii_of_N 226; ascii_of_N 130; ascii_of_N 172]) = B "a&lt;b" ++ utf8 65533 ++ utf8 8364.
Proof. vm_compute. reflexivity. Qed.
Example C73_duration_ex : duration_text 3661000001500 = B "1h1m1.0000015s" /\ read_duration (B "1h1m1.0000015s") = Some 3661000001500.
Proof. split; vm_compute; reflexivity. Qed.

(** If name and arguments have no quote, backslash or line end, the tooltip's script passes
    them on exactly. *)
Theorem C74_tooltip :
  exists defs, forall zero_time fuel order spans sorted doc, spans_to_svg zero_time fuel order spans sorted = Some doc ->
    exists height es, pictures defs doc height es /\
      Forall2 (fun s '(v, name, args) => shows (vs_name s) name /\ shows (join (B " ") (vs_args s)) args /\
        (js_safe (vs_name s) -> js_safe (join (B " ") (vs_args s)) ->
         js_call (B "mouseover") (tooltip (sv_id v) (sv_parent v) name args (sv_duration v) (sv_started v)) =
           Some [dec (sp_id (vs_span s)); dec (sv_parent v); name ++ B "(" ++ args ++ B ") Duration:" ++ sv_duration v ++ B " Started:" ++ sv_started v])) sorted es.
Proof.
  destruct svg_spec as [defs H]. exists defs. intros zero_time fuel order spans sorted doc E.
  destruct (H _ _ _ _ _ _ E) as (w & rows & es & _ & Hp & Hok & Hes). exists (graph_height rows), es. split; [exact Hp|]. clear -Hok Hes.
  induction Hes as [|s [[v name] args] l es (Hd & _) Hes IH]; constructor.
  - inversion Hok as [|? ? Hv _]; subst. destruct Hv as (_ & _ & Hdur & Hst & _). destruct Hd as (Hid & Hn & Ha & _). split; [exact Hn|]. split; [exact Ha|].
    intros Sn Sa. rewrite tooltip_call; [rewrite Hid; reflexivity|eapply shows_safe; eassumption..|exact Hdur|exact Hst].
  - apply IH. inversion Hok; assumption.
Qed.
Print Assumptions C74_tooltip.

(** A quote in an argument ends the JavaScript string: what follows is run as a script when the
    mouse is moved over the span. *)
Definition bad_span : vspan := VSpan (FSpan 1 None 1 2) (B "f") [B """'); alert(1); ('"""] None false.
Theorem C74_tooltip_refuted :
  exists zero_time fuel order spans doc defs height v name args before after,
    spans_to_svg zero_time fuel order spans spans = Some doc /\ pictures defs doc height [(v, name, args)] /\
    Forall (fun s => vs_args s = [B """'); alert(1); ('"""]) spans /\
    tooltip (sv_id v) (sv_parent v) name args (sv_duration v) (sv_started v) = before ++ B " alert(1);" ++ after /\ js_outside before = true.
Proof.
  destruct svg_spec as [defs H]. destruct (spans_to_svg 0 5 [1] [bad_span] [bad_span]) as [doc|] eqn:E; [|vm_compute in E; discriminate].
  destruct (H _ _ _ _ _ _ E) as (w & rows & es & _ & Hp & _ & Hes). inversion Hes as [|? e ? es' He Hnil]; subst. inversion Hnil; subst. clear Hes Hnil.
  destruct e as [[v name] args]. destruct He as ((Hid & Hn & Ha & _) & _ & _ & _ & Hpar). cbn [fst] in *.
  apply shows_exact in Hn; [|apply ascii_text; vm_compute; reflexivity]. apply shows_exact in Ha; [|apply ascii_text; vm_compute; reflexivity].
  change (Some (0, 0, 0) = Some (sv_parent v, sv_parent_left v, sv_parent_mid v)) in Hpar. apply Some_inj, pair_equal_spec in Hpar as [Hpar _]. apply pair_equal_spec in Hpar as [Hpar _].
  exists 0, 5%nat, [1], [bad_span], doc, defs, (graph_height rows), v, name, args, (B "mouseover('1', '0', 'f(""');"), (B " ('"") Duration:" ++ sv_duration v ++ B " Started:" ++ sv_started v ++ B "');").
  split; [exact E|]. split; [exact Hp|]. split; [repeat constructor|]. split; [|vm_compute; reflexivity].
  rewrite Hid, <- Hpar, Hn, Ha. reflexivity.
Qed.
Print Assumptions C74_tooltip_refuted.

Example C74_ex : js_safe (B "pkg.(*T).f") /\ js_safe (join (B " ") [B """a<b"""; B "7"]).
Proof. split; apply (bool_decide_unpack _); vm_compute; exact I. Qed.
Example C74_call_ex :
  js_call (B "mouseover") (tooltip 1 0 (B "f") (B "7") (B "1s") (B "0s")) = Some [B "1"; B "0"; B "f(7) Duration:1s Started:0s"].
Proof. vm_compute. reflexivity. Qed.

(** A bar is red if its span panicked, else yellow if the last error wrapped with WrappedErr is
    context.Canceled, orange for other errors, blue for none. *)
Theorem C75_colours :
  exists defs, forall zero_time fuel order spans sorted doc, spans_to_svg zero_time fuel order spans sorted = Some doc ->
    exists height es, pictures defs doc height es /\ Forall2 (fun s e => sv_id (fst (fst e)) = sp_id (vs_span s) /\ coloured s (fst (fst e))) sorted es.
Proof.
  destruct svg_spec as [defs H]. exists defs. intros zero_time fuel order spans sorted doc E.
  destruct (H _ _ _ _ _ _ E) as (w & rows & es & _ & Hp & _ & Hes). exists (graph_height rows), es. split; [exact Hp|].
  eapply Forall2_impl; [exact Hes|]. intros s [[v name] args] ((Hid & _) & Hc & _). split; [exact Hid|exact Hc].
Qed.
Print Assumptions C75_colours.

(** Every error has such a last one. *)
Theorem C75_last : forall e, exists e', last_wrapped e e'.
Proof. exact last_exists. Qed.
Print Assumptions C75_last.

(** An error that wraps context.Canceled with Unwrap only is drawn like any other. *)
Definition unwrapping : terr := TErr false None (Some (TErr true None None)).
Theorem C75_unwrap_refuted :
  exists zero_time fuel order spans doc defs height v name args,
    spans_to_svg zero_time fuel order spans spans = Some doc /\ pictures defs doc height [(v, name, args)] /\
    Forall (fun s => vs_panicked s = false /\ exists c e, vs_err s = Some (TErr c None (Some e)) /\ is_canceled e = true) spans /\ sv_color v = orange.
Proof.
  destruct svg_spec as [defs H]. destruct (spans_to_svg 0 5 [1] [VSpan (FSpan 1 None 1 2) [] [] (Some unwrapping) false] [VSpan (FSpan 1 None 1 2) [] [] (Some unwrapping) false]) as [doc|] eqn:E; [|vm_compute in E; discriminate].
  destruct (H _ _ _ _ _ _ E) as (w & rows & es & _ & Hp & _ & Hes). inversion Hes as [|? e ? es' He Hnil]; subst. inversion Hnil; subst. clear Hes Hnil.
  destruct e as [[v name] args]. destruct He as (_ & (_ & _ & Hc) & _). cbn [fst] in *.
  eexists 0, 5%nat, [1], _, doc, defs, _, v, name, args. split; [exact E|]. split; [exact Hp|]. split.
  - constructor; [|constructor]. split; [reflexivity|]. eexists _, _. split; reflexivity.
  - apply (Hc eq_refl unwrapping unwrapping eq_refl). constructor.
Qed.
Print Assumptions C75_unwrap_refuted.

Example C75_ex : last_wrapped ex_err (TErr true None None) /\ is_canceled (TErr true None None) = true.
Proof. split; [repeat constructor|reflexivity]. Qed.
Example C75_color_ex : svg_color false (Some ex_err) = yellow.
Proof. vm_compute. reflexivity. Qed.

(** Bars are where the layout puts them (see C48, C49). *)
Theorem C76_bars :
  exists defs, forall zero_time fuel order spans sorted doc, spans_to_svg zero_time fuel order spans sorted = Some doc ->
    exists w rows es, layout zero_time fuel order (map vs_span sorted) = Some (w, rows) /\ pictures defs doc (graph_height rows) es /\
      Forall2 (fun s e => sv_id (fst (fst e)) = sp_id (vs_span s) /\
        placed (row_of w) (fun s => bar_x (min_start zero_time (map vs_span spans)) (max_end zero_time (map vs_span spans)) (vs_span s)) s (fst (fst e))) sorted es.
Proof.
  destruct svg_spec as [defs H]. exists defs. intros zero_time fuel order spans sorted doc E.
  destruct (H _ _ _ _ _ _ E) as (w & rows & es & Hl & Hp & _ & Hes). exists w, rows, es. split; [exact Hl|]. split; [exact Hp|].
  eapply Forall2_impl; [exact Hes|]. intros s [[v name] args] ((Hid & _) & _ & Hc & _). split; [exact Hid|exact Hc].
Qed.
Print Assumptions C76_bars.

(** The line of a span goes from the middle of its bar's left side to that of its parent's bar,
    and the span names its parent; if the parent is not in the picture, the line ends at (0,0)
    and the span names 0. *)
Theorem C76_lines :
  exists defs, forall zero_time fuel order spans sorted doc,
    spans_to_svg zero_time fuel order spans sorted = Some doc -> NoDup (map (fun s => sp_id (vs_span s)) spans) -> Permutation sorted spans ->
    exists height es, pictures defs doc height es /\
      Forall2 (fun s e => sv_mid (fst (fst e)) = sv_top (fst (fst e)) + 7 /\
        Forall2 (fun ps pe => joined s (fst (fst e)) ps (fst (fst pe))) sorted es /\
        ((forall ps, ps ∈ sorted -> sp_parent (vs_span s) <> Some (sp_id (vs_span ps))) ->
         sv_parent (fst (fst e)) = 0 /\ sv_parent_left (fst (fst e)) = 0 /\ sv_parent_mid (fst (fst e)) = 0)) sorted es.
Proof.
  destruct svg_spec as [defs H]. exists defs. intros zero_time fuel order spans sorted doc E Hnd Hperm.
  destruct (H _ _ _ _ _ _ E) as (w & rows & es & _ & Hp & _ & Hes). exists (graph_height rows), es. split; [exact Hp|].
  eapply Forall2_impl; [exact Hes|]. intros s e (_ & _ & _ & Hm & Hpar). split; [exact Hm|]. split; [|intros Hn; exact (par_none zero_time spans sorted w Hperm s _ Hpar Hn)].
  apply Forall2_same_length_lookup. split; [exact (Forall2_length _ _ _ Hes)|]. intros i ps pe Hi Hj.
  pose proof (Forall2_lookup_lr _ _ _ _ _ _ Hes Hi Hj) as (Hd & _ & Hpl & _).
  eapply (par_joined zero_time spans sorted w Hnd Hperm s _ ps _ _ pe); [exact (elem_of_list_lookup_2 _ _ _ Hi)|exact Hpar|exact Hd|reflexivity|exact Hpl].
Qed.
Print Assumptions C76_lines.
Example C76_ex : NoDup (map (fun s => sp_id (vs_span s)) ex_svg).
Proof. apply (bool_decide_unpack _). vm_compute. exact I. Qed.
Example C76_lines_ex :
  option_map (fun v => (sv_parent v, sv_parent_left v, sv_parent_mid v, sv_left v, sv_mid v))
    (span_values 0 ex_svg ex_svg [(1, 1%nat); (2, 2%nat)] (VSpan (FSpan 2 (Some 1) 300 800) (B "pkg.g") [] (Some ex_err) false)) = Some (1, 0, 23, 160, 39).
Proof. vm_compute. reflexivity. Qed.
