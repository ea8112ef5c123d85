(** The SVG text is read back by the XML reader. *)
From Verif Require Import Base BaseProofs PresentModel LayoutModel SvgModel SvgSpec SvgProofs SvgNumProofs.
Local Open Scope Z_scope.
Local Arguments B : simpl never.

Definition rcons (s cur : bytes) : bytes := rev s ++ cur.
Lemma rev_rcons s cur : rev (rcons s cur) = rev cur ++ s.
Proof. unfold rcons. rewrite rev_app_distr, rev_involutive. reflexivity. Qed.
Lemma run_inert m s cur ent tag at_ ats stk out :
  inert s -> m = MText \/ m = MValue -> xrun s (Some (X m cur ent tag at_ ats stk out)) = Some (X m (rcons s cur) ent tag at_ ats stk out).
Proof. intros (_ & H & _) Hm. apply run_plain; assumption. Qed.
Lemma run_esc m t e cur tag at_ ats stk out :
  esc t e -> m = MText \/ m = MValue -> xrun e (Some (X m cur [] tag at_ ats stk out)) = Some (X m (rcons t cur) [] tag at_ ats stk out).
Proof. intros H Hm. apply (esc_run t e H). exact Hm. Qed.
Lemma run_spaces s cur ent tag at_ ats stk out : forallb xspace s = true -> 
  xrun s (Some (X MText cur ent tag at_ ats stk out)) = Some (X MText (rev s ++ cur) ent tag at_ ats stk out).
Proof.
  revert cur. induction s as [|c s IH]; intros cur H; [reflexivity|]. cbn [forallb] in H. apply andb_prop in H as [H1 H2].
  unfold xrun. cbn [fold_left xstep]. unfold xspace in H1. rewrite !is_byte in *.
  assert (byte c = 32 \/ byte c = 10 \/ byte c = 13 \/ byte c = 9) as Hc by (rewrite !orb_true_iff, !Z.eqb_eq in H1; tauto).
  destruct (Z.eqb_spec (byte c) (Z.of_N 60)); [lia|]. destruct (Z.eqb_spec (byte c) (Z.of_N 38)); [lia|]. destruct (Z.eqb_spec (byte c) (Z.of_N 62)); [lia|].
  fold (xrun s). unfold xrun in IH. rewrite IH by exact H2. cbn [rev]. rewrite <- app_assoc. reflexivity.
Qed.
Lemma run_lt rest cur ent tag at_ ats stk out : forallb xspace cur = true ->
  xrun ("<"%char :: rest) (Some (X MText cur ent tag at_ ats stk out)) = xrun rest (Some (X (MLt false) [] ent tag at_ ats stk out)).
Proof. intros H. unfold xrun. cbn [fold_left xstep]. change (is "<" 60) with true. cbv iota. unfold flush. rewrite H. reflexivity. Qed.
Lemma forallb_rev {A} (f : A -> bool) l : forallb f (rev l) = forallb f l.
Proof. induction l as [|x l IH]; [reflexivity|]. cbn [rev]. rewrite forallb_app, IH. cbn. destruct (f x), (forallb f l); reflexivity. Qed.

Ltac lit :=
  match goal with
  | |- context [xrun (B ?s) (Some ?st)] =>
      let r := eval cbv -[rcons dec] in (xrun (B s) (Some st)) in change (xrun (B s) (Some st)) with r
  end.
Definition svg_name : bytes := rev (B "svg").
Section func.
  Context (v : sval) (name args : bytes).
  Context (Hn : esc name (sv_name v)) (Ha : esc args (sv_args v)).
  Context (Hd : inert (sv_duration v)) (Hs : inert (sv_started v)) (Hc : inert (sv_color v)).
  Lemma func_run cur tag at_ stk out : forallb xspace cur = true -> 
    exists tag' at' toks, xrun (svg_func v) (Some (X MText cur [] tag at_ [] (svg_name :: stk) out)) = Some (X MText [] [] tag' at' [] (svg_name :: stk) (toks ++ out)) /\
      map forwards toks = rev (span_tokens v name args).
  Proof.
    intros Hcur. destruct v as [id parent nm ag dur started left_ top width height color text_top font parent_left mid parent_mid]. cbn [sv_name sv_args sv_duration sv_started sv_color] in Hn, Ha, Hd, Hs, Hc.
    eexists _, _, (_ :: _ :: _ :: _ :: _ :: _ :: _ :: _ :: _ :: _ :: _ :: _ :: _ :: _ :: [_]).
    split.
    - unfold svg_func. cbn [sv_id sv_parent sv_name sv_args sv_duration sv_started sv_left sv_top sv_width sv_height sv_color sv_text_top sv_font sv_parent_left sv_mid sv_parent_mid]. rewrite !xrun_app.
      match goal with |- context [xrun (B ?s) (Some (X MText cur _ _ _ _ _ _))] => change (B s) with (B "
  " ++ ("<"%char :: B "g id=""id-")) end.
      rewrite xrun_app, run_spaces by reflexivity. rewrite run_lt by (rewrite forallb_app, forallb_rev, Hcur; reflexivity).
      repeat (lit; first [rewrite (run_inert _ (dec _)) by (auto using dec_inert) | rewrite (run_esc _ name nm) by auto | rewrite (run_esc _ args ag) by auto | rewrite run_inert by auto]).
      cbn [app]. reflexivity.
    - cbv [map forwards fst snd]. cbn [rev]. repeat (rewrite rev_rcons; cbn [rev]). rewrite <- ?app_assoc. cbn [app].
      unfold span_tokens, tooltip. cbv zeta. cbn [rev app].
      repeat (apply (f_equal2 (@cons xtoken)); [rewrite ?rev_rcons; reflexivity|]). reflexivity.
  Qed.
End func.

(** ** Header and footer *)
Lemma header_run : exists defs cur tag at_, forall height,
  xrun (svg_header height) (Some (X MStart [] [] [] [] [] [] [])) =
    Some (X MText cur [] tag at_ [] [svg_name] (defs ++ [XOpen svg_name
      [(rev (B "version"), rev (B "1.1")); (rev (B "xmlns"), rev (B "http://www.w3.org/2000/svg")); (rev (B "xmlns:xlink"), rev (B "http://www.w3.org/1999/xlink"));
       (rev (B "viewBox"), rcons (dec height) (rev (B "0 0 1200 "))); (rev (B "width"), rev (B "1200")); (rev (B "height"), rcons (dec height) [])]])) /\
  forallb xspace cur = true.
Proof.
  eexists [_; _; _; _; _; _; _; _; _; _; _; _; _; _; _; _; _], _, _, _. intros height. split.
  - unfold svg_header. rewrite !xrun_app.
    repeat (lit; rewrite (run_inert _ (dec _)) by (auto using dec_inert)).
    lit. cbn [app]. reflexivity.
  - reflexivity.
Qed.

Lemma footer_run cur tag at_ out : forallb xspace cur = true ->
  exists tag' at' toks, xrun svg_footer (Some (X MText cur [] tag at_ [] [svg_name] out)) = Some (X MText [newline] [] tag' at' [] [] (toks ++ out)) /\
    map forwards toks = rev svg_tail.
Proof.
  intros Hcur. eexists _, _, [_; _; _; _; _; _; _]. split.
  - change svg_footer with (B "
  " ++ ("<"%char :: drop 4 svg_footer)). rewrite xrun_app, run_spaces by reflexivity. rewrite run_lt by (rewrite forallb_app, forallb_rev, Hcur; reflexivity).
    match goal with |- xrun ?s (Some ?st) = _ => let r := eval cbv in (xrun s (Some st)) in change (xrun s (Some st)) with r end.
    cbn [app]. reflexivity.
  - vm_compute. reflexivity.
Qed.

(** ** The document *)
Definition value_ok (e : sval * bytes * bytes) : Prop :=
  let '(v, name, args) := e in esc name (sv_name v) /\ esc args (sv_args v) /\ inert (sv_duration v) /\ inert (sv_started v) /\ inert (sv_color v).
Lemma funcs_run es : forall cur tag at_ out, Forall value_ok es -> forallb xspace cur = true ->
  exists cur' tag' at' toks,
    xrun (concat (map svg_func (map (fun e => fst (fst e)) es))) (Some (X MText cur [] tag at_ [] [svg_name] out)) = Some (X MText cur' [] tag' at' [] [svg_name] (toks ++ out)) /\
    forallb xspace cur' = true /\
    map forwards toks = rev (concat (map (fun '(v, name, args) => span_tokens v name args) es)).
Proof.
  induction es as [|[[v name] args] es IH]; intros cur tag at_ out H Hcur.
  - exists cur, tag, at_, []. cbn. auto.
  - inversion H as [|? ? Hv Hes]; subst. destruct Hv as (Hn & Ha & Hd & Hs & Hc). cbn [map concat fst snd]. rewrite xrun_app.
    destruct (func_run v name args Hn Ha Hd Hs Hc cur tag at_ [] out Hcur) as (tag' & at' & toks & E & T). rewrite E.
    destruct (IH [] tag' at' (toks ++ out) Hes eq_refl) as (cur2 & tag2 & at2 & toks2 & E2 & Hc2 & T2).
    exists cur2, tag2, at2, (toks2 ++ toks). rewrite E2, <- app_assoc. split; [reflexivity|]. split; [exact Hc2|].
    rewrite map_app, T2, T, rev_app_distr. reflexivity.
Qed.
Lemma special_xml r x : (r, x) ∈ special -> xml_text x.
Proof.
  intros H. apply elem_of_list_In in H. cbn [special In] in H.
  repeat (destruct H as [H|H]; [apply pair_equal_spec in H as [_ <-]; apply ascii_text; vm_compute; reflexivity|]). destruct H.
Qed.
Lemma esc_out t e : esc t e -> xml_text e.
Proof.
  induction 1 as [|r t e [Hp _] He IH|r x t e Hx He IH]; [apply xml_text_nil|..]; apply xml_text_app; try assumption.
  - exists [r]. split; [constructor; [exact Hp|constructor]|]. cbn. rewrite app_nil_r. reflexivity.
  - exact (special_xml r x Hx).
Qed.
Ltac text_lit := apply ascii_text; vm_compute; reflexivity.
Ltac text :=
  lazymatch goal with
  | |- xml_text (_ ++ _) => apply xml_text_app; text
  | |- xml_text (dec _) => apply (proj1 (dec_inert _))
  | |- xml_text (B _) => text_lit
  | _ => assumption
  end.
Lemma func_text e : value_ok e -> xml_text (svg_func (fst (fst e))).
Proof.
  destruct e as [[v name] args]. intros (Hn & Ha & [Hd _] & [Hs _] & [Hc _]). apply esc_out in Hn, Ha. cbn [fst]. unfold svg_func.
  text.
Qed.
Lemma doc_text height es : Forall value_ok es -> xml_text (svg_document height (map (fun e => fst (fst e)) es)).
Proof.
  intros H. unfold svg_document. apply xml_text_app; [|apply xml_text_app].
  - unfold svg_header. text.
  - induction H as [|e es He H IH]; [apply xml_text_nil|]. cbn [map concat]. apply xml_text_app; [apply func_text, He|exact IH].
  - text_lit.
Qed.
Lemma doc_pictures : exists defs, forall height es, Forall value_ok es -> pictures defs (svg_document height (map (fun e => fst (fst e)) es)) height es.
Proof.
  destruct header_run as (defs & cur & tag & at_ & Hh). exists (rev (map forwards defs)). intros height es H. split; [apply doc_text, H|].
  destruct (Hh height) as [E Hcur]. clear Hh. unfold xml_read, svg_document. rewrite xrun_app, E, xrun_app.
  match goal with |- context [defs ++ [?root]] => set (rt := root) end.
  destruct (funcs_run es cur tag at_ (defs ++ [rt]) H Hcur) as (cur2 & tag2 & at2 & toks & E2 & Hc2 & T2). rewrite E2.
  destruct (footer_run cur2 tag2 at2 (toks ++ defs ++ [rt]) Hc2) as (tag3 & at3 & toks3 & E3 & T3). rewrite E3. clear E3.
  destruct (toks3 ++ toks ++ defs ++ [rt]) as [|t l] eqn:El.
  { apply (f_equal length) in El. rewrite !app_length in El. cbn in El. lia. }
  change (forallb xspace [newline]) with true. cbv iota. rewrite <- El. clear El t l. f_equal.
  rewrite !map_app, T3, T2, !rev_app_distr, !rev_involutive. rewrite <- !app_assoc. cbn [map rev app]. f_equal.
  unfold rt. cbn [forwards map fst snd]. rewrite !rev_rcons. reflexivity.
Qed.
