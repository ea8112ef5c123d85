(** The values given to the SVG templates. *)
From Verif Require Import Base BaseProofs PresentModel LayoutModel SvgModel SvgSpec SvgProofs SvgNumProofs SvgDocProofs.
Local Open Scope Z_scope.
Local Arguments B : simpl never.

Lemma all_some_spec {A} (l : list (option A)) : forall r, all_some l = Some r -> Forall2 (fun o x => o = Some x) l r.
Proof.
  induction l as [|[x|] l IH]; intros r E; cbn [all_some] in E; [apply Some_inj in E as <-; constructor| |discriminate].
  destruct (all_some l) as [xs|]; [|discriminate]. apply Some_inj in E as <-. constructor; [reflexivity|]. apply IH. reflexivity.
Qed.
Lemma color_inert p e : inert (svg_color p e).
Proof. unfold svg_color. destruct p; [inert_lit|]. destruct e as [e|]; [|inert_lit]. destruct (unwrap_error e) as [[] ? ?]; inert_lit. Qed.
Lemma unwrap_last e e' : last_wrapped e e' -> unwrap_error e = e'.
Proof. induction 1; [reflexivity..|]. exact IHlast_wrapped. Qed.
Lemma last_exists : forall e, exists e', last_wrapped e e'.
Proof.
  fix IH 1. intros [c [[e|]|] u].
  - destruct (IH e) as [e' H]. exists e'. constructor. exact H.
  - eexists. apply lw_nil.
  - eexists. apply lw_none.
Qed.
Lemma sub_exact x y : - 2 ^ 63 <= x - y < 2 ^ 63 -> time_sub x y = x - y.
Proof. unfold time_sub. lia. Qed.
Lemma sub_range x y : - 2 ^ 63 <= time_sub x y <= 2 ^ 63 - 1.
Proof. unfold time_sub. lia. Qed.

Definition par_values (mn mx : Z) (spans : list vspan) (w : list (Z * nat)) (s : vspan) : option (Z * Z * Z) :=
  match sp_parent (vs_span s) with
  | None => Some (0, 0, 0)
  | Some p =>
      match by_id spans p with
      | None => Some (0, 0, 0)
      | Some ps =>
          match time_to_x mn mx (sp_start (vs_span ps)) with
          | None => None
          | Some px => Some (p, px, bar_height / 2 + Z.of_nat (row_of w p) * (bar_height + bar_sep))
          end
      end
  end.
Section spans.
  Context (zt : Z) (spans sorted : list vspan) (w : list (Z * nat)).
  Local Notation mn := (min_start zt (map vs_span spans)).
  Local Notation mx := (max_end zt (map vs_span spans)).
  Definition first_start : Z := match sorted with f :: _ => sp_start (vs_span f) | [] => zt end.
  Lemma span_values_spec s v : span_values zt spans sorted w s = Some v ->
    exists name args, value_ok (v, name, args) /\ describes first_start s (v, name, args) /\ coloured s v /\
      placed (row_of w) (fun s => bar_x mn mx (vs_span s)) s v /\ sv_mid v = sv_top v + 7 /\
      par_values mn mx spans w s = Some (sv_parent v, sv_parent_left v, sv_parent_mid v).
  Proof.
    unfold span_values. cbv zeta. fold first_start. intros E.
    destruct (bar_x mn mx (vs_span s)) as [[x width]|] eqn:Ex; [|discriminate].
    change (match par_values mn mx spans w s with
            | None => None
            | Some (pid, pleft, pmid) =>
               Some (SVal (sp_id (vs_span s)) pid (escape_text (vs_name s)) (escape_text (join (B " ") (vs_args s)))
                  (duration_text (time_sub (sp_finish (vs_span s)) (sp_start (vs_span s))))
                  (duration_text (time_sub (sp_start (vs_span s)) first_start))
                  x (bar_top (row_of w (sp_id (vs_span s)))) width bar_height (svg_color (vs_panicked s) (vs_err s))
                  ((Z.of_nat (row_of w (sp_id (vs_span s))) + 1) * (bar_height + bar_sep) - bar_sep - 3) 9
                  pleft (Z.of_nat (row_of w (sp_id (vs_span s))) * (bar_height + bar_sep) + bar_height / 2) pmid) end = Some v) in E.
    destruct (par_values mn mx spans w s) as [[[pid pleft] pmid]|] eqn:Ep; [|discriminate]. apply Some_inj in E as <-.
    destruct (escape_shows (vs_name s)) as (name & Hn & En). destruct (escape_shows (join (B " ") (vs_args s))) as (args & Ha & Ea).
    exists name, args. split; [|split; [|split; [|split; [|split]]]].
    - cbn [value_ok sv_name sv_args sv_duration sv_started sv_color]. split; [exact En|]. split; [exact Ea|]. split; [apply duration_inert|]. split; [apply duration_inert|apply color_inert].
    - cbn [describes sv_id sv_duration sv_started]. split; [reflexivity|]. split; [exact Hn|]. split; [exact Ha|].
      split; intros H; rewrite <- sub_exact by exact H; apply duration_read; apply sub_range.
    - unfold coloured. cbn [sv_color]. unfold svg_color. split; [|split].
      + intros ->. reflexivity.
      + intros -> ->. reflexivity.
      + intros -> e e' -> Hl. rewrite (unwrap_last e e' Hl). destruct e' as [[] ? ?]; reflexivity.
    - unfold placed. cbn [sv_left sv_width sv_top sv_height sv_text_top sv_font]. unfold bar_top, bar_height, bar_sep. split; [exact Ex|]. lia.
    - cbn [sv_mid sv_top]. unfold bar_top, bar_height, bar_sep. change (15 / 2) with 7. lia.
    - reflexivity.
  Qed.
  Lemma values_spec : forall l vs, all_some (map (span_values zt spans sorted w) l) = Some vs ->
    exists es, vs = map (fun e => fst (fst e)) es /\ Forall value_ok es /\
      Forall2 (fun s e => describes first_start s e /\ coloured s (fst (fst e)) /\
        placed (row_of w) (fun s => bar_x mn mx (vs_span s)) s (fst (fst e)) /\ sv_mid (fst (fst e)) = sv_top (fst (fst e)) + 7 /\
        par_values mn mx spans w s = Some (sv_parent (fst (fst e)), sv_parent_left (fst (fst e)), sv_parent_mid (fst (fst e)))) l es.
  Proof.
    intros l vs E. apply all_some_spec in E. revert vs E. induction l as [|s l IH]; intros vs E; cbn [map] in E; inversion E as [|? v ? vs' Ev Evs]; subst.
    - exists []. repeat split; constructor.
    - destruct (IH vs' Evs) as (es & -> & Hok & Hes). destruct (span_values_spec s v Ev) as (name & args & Hv & Hr).
      exists ((v, name, args) :: es). split; [reflexivity|]. split; constructor; assumption.
  Qed.
End spans.
(** Everything about the document. *)
Lemma svg_spec : exists defs, forall zt fuel order spans sorted doc, spans_to_svg zt fuel order spans sorted = Some doc ->
  exists w rows es, layout zt fuel order (map vs_span sorted) = Some (w, rows) /\ pictures defs doc (graph_height rows) es /\ Forall value_ok es /\
    Forall2 (fun s e => describes (first_start zt sorted) s e /\ coloured s (fst (fst e)) /\
        placed (row_of w) (fun s => bar_x (min_start zt (map vs_span spans)) (max_end zt (map vs_span spans)) (vs_span s)) s (fst (fst e)) /\ sv_mid (fst (fst e)) = sv_top (fst (fst e)) + 7 /\
        par_values (min_start zt (map vs_span spans)) (max_end zt (map vs_span spans)) spans w s = Some (sv_parent (fst (fst e)), sv_parent_left (fst (fst e)), sv_parent_mid (fst (fst e)))) sorted es.
Proof.
  destruct doc_pictures as [defs Hd]. exists defs. intros zt fuel order spans sorted doc E. unfold spans_to_svg in E.
  destruct (layout zt fuel order (map vs_span sorted)) as [[w rows]|] eqn:El; [|discriminate].
  destruct (all_some (map (span_values zt spans sorted w) sorted)) as [vs|] eqn:Ev; [|discriminate]. apply Some_inj in E as <-.
  destruct (values_spec zt spans sorted w sorted vs Ev) as (es & -> & Hok & Hes). exists w, rows, es. split; [reflexivity|]. split; [apply Hd, Hok|]. split; [exact Hok|exact Hes].
Qed.

(** ** Lines to the parents *)
Lemma by_id_last spans : forall r id,
  fold_left (fun r s => if sp_id (vs_span s) =? id then Some s else r) spans r = match by_id spans id with Some s => Some s | None => r end.
Proof.
  unfold by_id. induction spans as [|s spans IH]; intros r id; [reflexivity|]. cbn [fold_left]. rewrite IH. rewrite (IH (if sp_id (vs_span s) =? id then Some s else None)).
  destruct (fold_left _ spans None); [reflexivity|]. destruct (sp_id (vs_span s) =? id); reflexivity.
Qed.
Lemma by_id_some spans id s : by_id spans id = Some s -> s ∈ spans /\ sp_id (vs_span s) = id.
Proof.
  unfold by_id. induction spans as [|a spans IH]; [discriminate|]. cbn [fold_left]. rewrite by_id_last. unfold by_id.
  destruct (fold_left (fun r s => if sp_id (vs_span s) =? id then Some s else r) spans None) as [b|].
  - intros E. apply Some_inj in E as ->. destruct (IH eq_refl). split; [right; assumption|assumption].
  - destruct (Z.eqb_spec (sp_id (vs_span a)) id); [|discriminate]. intros E. apply Some_inj in E as ->. split; [left|assumption].
Qed.
Lemma by_id_none spans id : by_id spans id = None -> forall s, s ∈ spans -> sp_id (vs_span s) <> id.
Proof.
  unfold by_id. induction spans as [|a spans IH]; [intros _ s H; inversion H|]. cbn [fold_left]. rewrite by_id_last. unfold by_id.
  destruct (fold_left (fun r s => if sp_id (vs_span s) =? id then Some s else r) spans None) as [b|]; [discriminate|].
  destruct (Z.eqb_spec (sp_id (vs_span a)) id); [discriminate|]. intros _ s H. apply elem_of_cons in H as [->|H]; [assumption|]. apply IH; [reflexivity|exact H].
Qed.
Lemma map_lookup_some {A C} (f : A -> C) l : forall i x, l !! i = Some x -> map f l !! i = Some (f x).
Proof. induction l as [|y l IH]; intros i x H; [discriminate|]. destruct i as [|i]; cbn in *; [congruence|]. apply IH, H. Qed.
Lemma by_id_in spans s : NoDup (map (fun s => sp_id (vs_span s)) spans) -> s ∈ spans -> by_id spans (sp_id (vs_span s)) = Some s.
Proof.
  intros Hn Hs. destruct (by_id spans (sp_id (vs_span s))) as [t|] eqn:E; [|destruct (by_id_none _ _ E s Hs eq_refl)].
  apply by_id_some in E as [Ht E]. f_equal. apply elem_of_list_lookup in Hs as [i Hi]. apply elem_of_list_lookup in Ht as [j Hj].
  assert (i = j); [|congruence]. apply (NoDup_lookup _ i j (sp_id (vs_span s)) Hn); [exact (map_lookup_some _ _ _ _ Hi)|rewrite <- E; exact (map_lookup_some _ _ _ _ Hj)].
Qed.

Section joins.
  Context (zt : Z) (spans sorted : list vspan) (w : list (Z * nat)).
  Context (Hnd : NoDup (map (fun s => sp_id (vs_span s)) spans)) (Hperm : Permutation sorted spans).
  Local Notation mn := (min_start zt (map vs_span spans)).
  Local Notation mx := (max_end zt (map vs_span spans)).
  Lemma par_joined s v ps pv first pe : ps ∈ sorted ->
    par_values mn mx spans w s = Some (sv_parent v, sv_parent_left v, sv_parent_mid v) ->
    describes first ps pe -> fst (fst pe) = pv -> placed (row_of w) (fun s => bar_x mn mx (vs_span s)) ps pv -> joined s v ps pv.
  Proof.
    intros Hps Ep Hd <- (Hx & Ht & _) Hpar. destruct pe as [[pv n] a]. cbn [fst] in *. destruct Hd as (Hid & _).
    unfold par_values in Ep. rewrite Hpar, (by_id_in spans ps Hnd) in Ep by (rewrite <- Hperm; exact Hps).
    unfold bar_x in Hx. destruct (time_to_x mn mx (sp_start (vs_span ps))) as [px|]; [|discriminate].
    destruct (time_to_x mn mx (sp_finish (vs_span ps))) as [r|]; [|discriminate].
    apply Some_inj, pair_equal_spec in Hx as [Hx _]. apply Some_inj, pair_equal_spec in Ep as [Ep Em]. apply pair_equal_spec in Ep as [Ep El].
    split; [congruence|]. split; [congruence|]. rewrite <- Em, Ht. unfold bar_height, bar_sep. change (15 / 2) with 7. lia.
  Qed.
  Lemma par_none s v : par_values mn mx spans w s = Some (sv_parent v, sv_parent_left v, sv_parent_mid v) ->
    (forall ps, ps ∈ sorted -> sp_parent (vs_span s) <> Some (sp_id (vs_span ps))) ->
    sv_parent v = 0 /\ sv_parent_left v = 0 /\ sv_parent_mid v = 0.
  Proof.
    intros Ep Hn. unfold par_values in Ep. destruct (sp_parent (vs_span s)) as [p|].
    - destruct (by_id spans p) as [ps|] eqn:Eb.
      + apply by_id_some in Eb as [Hps <-]. destruct (Hn ps); [rewrite Hperm; exact Hps|reflexivity].
      + apply Some_inj, pair_equal_spec in Ep as [Ep Em]. apply pair_equal_spec in Ep as [Ep El]. auto.
    - apply Some_inj, pair_equal_spec in Ep as [Ep Em]. apply pair_equal_spec in Ep as [Ep El]. auto.
  Qed.
End joins.

(** ** JavaScript *)
Lemma js_byte_safe c : js_byte c <-> N_of_ascii c ∉ [10; 13; 39; 92]%N.
Proof.
  unfold js_byte, byte. rewrite !not_elem_of_cons. split; intros (H1 & H2 & H3 & H4 & _); (split_and!; [lia..|apply not_elem_of_nil]).
Qed.
Lemma inert_safe s : inert s -> js_safe s.
Proof. intros (_ & _ & H). unfold js_safe. eapply Forall_impl; [exact H|]. intros c Hc. apply js_byte_safe, Hc. Qed.
Lemma literal_run x : forall cur rest, js_safe x -> js_literals true cur (x ++ rest) = js_literals true (rev x ++ cur) rest.
Proof.
  induction x as [|c x IH]; intros cur rest H; [reflexivity|]. inversion H as [|? ? Hc Hx]; subst. cbn [app js_literals].
  rewrite !not_elem_of_cons in Hc. destruct Hc as (H1 & H2 & H3 & H4 & _). unfold is.
  destruct (N.eqb_spec (N_of_ascii c) 39); [contradiction|]. destruct (N.eqb_spec (N_of_ascii c) 92); [contradiction|].
  destruct (N.eqb_spec (N_of_ascii c) 10); [contradiction|]. destruct (N.eqb_spec (N_of_ascii c) 13); [contradiction|]. cbn [orb].
  rewrite IH by exact Hx. cbn [rev]. rewrite <- app_assoc. reflexivity.
Qed.
Lemma js_safe_app s t : js_safe s -> js_safe t -> js_safe (s ++ t).
Proof. intros H H'. apply Forall_app. auto. Qed.
Lemma tooltip_call id parent name args dur started : js_safe name -> js_safe args -> inert dur -> inert started ->
  js_call (B "mouseover") (tooltip id parent name args dur started) =
    Some [dec id; dec parent; name ++ B "(" ++ args ++ B ") Duration:" ++ dur ++ B " Started:" ++ started].
Proof.
  intros Hn Ha Hd Hs. unfold tooltip.
  change (js_call (B "mouseover") (B "mouseover('" ++ ?x)) with (js_literals true [] x).
  set (text := name ++ B "(" ++ args ++ B ") Duration:" ++ dur ++ B " Started:" ++ started).
  transitivity (js_literals true [] (dec id ++ B "', '" ++ dec parent ++ B "', '" ++ text ++ B "');")).
  { unfold text. rewrite <- !app_assoc. reflexivity. }
  assert (Ht : js_safe text).
  { unfold text. repeat apply js_safe_app; try assumption; try (apply inert_safe; assumption); apply inert_safe; inert_lit. }
  clearbody text. rewrite literal_run by apply inert_safe, dec_inert. rewrite app_nil_r.
  match goal with |- js_literals true ?c (B "', '" ++ ?r) = _ => change (js_literals true c (B "', '" ++ r)) with (match js_literals true [] r with Some l => Some (rev c :: l) | None => None end) end.
  rewrite literal_run by apply inert_safe, dec_inert. rewrite app_nil_r.
  match goal with |- context [js_literals true ?c (B "', '" ++ ?r)] => change (js_literals true c (B "', '" ++ r)) with (match js_literals true [] r with Some l => Some (rev c :: l) | None => None end) end.
  rewrite literal_run by exact Ht. rewrite app_nil_r.
  match goal with |- context [js_literals true ?c (B "');")] => change (js_literals true c (B "');")) with (Some [rev c]) end.
  rewrite !rev_involutive. reflexivity.
Qed.
Lemma utf8_safe_fffd : js_safe (utf8 65533).
Proof. apply (bool_decide_unpack _). vm_compute. exact I. Qed.
Lemma shows_safe s t : shows s t -> js_safe s -> js_safe t.
Proof.
  induction 1 as [|r s t Hr Hs IH|x s t Hx Hl Hn Hs IH]; intros H; [exact H|..]; apply Forall_app in H as [H1 H2]; apply js_safe_app; auto. apply utf8_safe_fffd.
Qed.
