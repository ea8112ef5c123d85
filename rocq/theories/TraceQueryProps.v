(** C77: TraceQuerySVG and TraceQueryJSON. *)
From Verif Require Import Base PresentModel Conc CollectModel CollectSpec CollectProps WatchModel WatchSpec WatchProofs WatchProps KeepAliveModel KeepAliveSpec KeepAliveProofs
  TraceQueryModel TraceQuerySpec TraceQueryProofs TraceQueryProofs2 LayoutModel SvgModel SvgSpec SvgProps.
Local Open Scope nat_scope.

(** The writer is never called while another call is running, nor after the query returned. *)
Theorem C77_exclusive : forall info fuel document acts,
  one_at_a_time false (q_log (q_exec info fuel document acts)).
Proof. exact q_exclusive. Qed.
Print Assumptions C77_exclusive.
Theorem C77_after : forall info fuel document acts more r,
  q_returned info fuel document acts r ->
  q_returned info fuel document (acts ++ more) r /\ q_log (q_exec info fuel document (acts ++ more)) = q_log (q_exec info fuel document acts).
Proof. exact q_after. Qed.
Print Assumptions C77_after.

(** What is written is at any time some newlines, not more than the ticker fired, and then a
    beginning of the document of the spans found. *)
Theorem C77_output : forall info fuel document acts,
  exists k d, output info fuel document acts = newlines k ++ d /\ k <= ticks acts /\
    (d = [] \/ exists l, found info fuel document acts l /\ d `prefix_of` concat (document l)).
Proof. exact q_output. Qed.
Print Assumptions C77_output.
(** If the query returns nil the whole document was written. *)
Theorem C77_complete : forall info fuel document acts,
  q_returned info fuel document acts TNil ->
  exists k l, found info fuel document acts l /\ output info fuel document acts = newlines k ++ concat (document l) /\ k <= ticks acts /\
    forall e, ~ ping_failed info fuel document acts e.
Proof. exact q_complete. Qed.
Print Assumptions C77_complete.

(** The spans found are those of C70. *)
Theorem C77_spans : forall info fuel document acts a,
  let calls := w_calls info fuel (q_watch (q_exec info fuel document acts)) in
  distinct_ids info -> finish_once info fuel calls -> deep_enough info fuel calls ->
  found info fuel document acts a ->
  exists r l, a = Some (r :: l) /\ QNote (WStart (fs_span r) true) ∈ acts /\ (forall x, x ∈ r :: l -> QNote (WFinish x) ∈ acts) /\
    (forall x, x ∈ r :: l <-> connected info (collected info fuel calls) r x) /\ NoDup (map fs_span (r :: l)) /\
    (forall x, connected info (in_period info fuel calls (fs_span r)) r x -> x ∈ r :: l).
Proof.
  intros info fuel document acts a calls Hd Hf Hn H. destruct (watch_result info fuel _ a Hd Hf Hn H) as (r & l & -> & _ & S & F & C & N & _ & P).
  exists r, l. split; [reflexivity|]. split; [apply (note_in _ _ _ _ _ S); exact I|]. split; [intros x Hx; apply (note_in _ _ _ _ _ (F x Hx)); exact I|]. auto.
Qed.
Print Assumptions C77_spans.

(** It returns an error only for a failed Write, and that error: of a ping, then nothing of
    the document was written, or of the document. *)
Theorem C77_error : forall info fuel document acts e,
  q_returned info fuel document acts (TWrite e) ->
  (ping_failed info fuel document acts e /\ exists k, output info fuel document acts = newlines k) \/
  (write_failed info fuel document acts e /\ forall e', ~ ping_failed info fuel document acts e').
Proof.
  intros info fuel document acts e H. destruct (st_err (ka (q_exec info fuel document acts))) as [e'|] eqn:E.
  - apply ping_failed_err in E. destruct (ping_result _ _ _ _ _ _ E H) as [E' K]. injection E' as ->. left. auto.
  - right. assert (N : forall x, ~ ping_failed info fuel document acts x) by (intros x F; apply ping_failed_err in F; congruence).
    split; [|exact N]. destruct (cause info fuel document acts e H) as [F|F]; [exfalso; exact (N _ F)|exact F].
Qed.
Print Assumptions C77_error.
Theorem C77_no_context_error : forall info fuel document acts, ~ q_returned info fuel document acts TCtx.
Proof. exact no_ctx. Qed.
Print Assumptions C77_no_context_error.
(** If a ping failed that is what the query returns, and it does return, without any span
    having to match. *)
Theorem C77_ping_error : forall info fuel document acts e r,
  ping_failed info fuel document acts e -> q_returned info fuel document acts r -> r = TWrite e.
Proof. intros. eapply ping_result; eauto. Qed.
Print Assumptions C77_ping_error.
Theorem C77_gives_up : forall info fuel document acts e,
  ping_failed info fuel document acts e -> waits info fuel document acts ->
  exists more, Forall by_itself more /\ q_returned info fuel document (acts ++ more) (TWrite e).
Proof. exact q_gives_up. Qed.
Print Assumptions C77_gives_up.

(** The XML declaration has to come first: TraceQuerySVG's output is well-formed only if there
    was no ping. *)
Lemma xrun_none s : xrun s None = None.
Proof. induction s as [|c s IH]; [reflexivity|exact IH]. Qed.
Lemma xrun_newlines k : forall cur s, forallb xspace cur = true ->
  exists cur', xrun (newlines k ++ s) (Some (X MText cur [] [] [] [] [] [])) = xrun s (Some (X MText cur' [] [] [] [] [] [])) /\ forallb xspace cur' = true.
Proof.
  induction k as [|k IH]; intros cur s H; [exists cur; auto|]. unfold newlines in *. cbn [repeat app].
  change (xrun (newline :: ?r) (Some (X MText cur [] [] [] [] [] []))) with (xrun r (Some (X MText (newline :: cur) [] [] [] [] [] []))).
  apply IH. exact H.
Qed.
Theorem C77_svg_late : forall k zero_time fuel order spans sorted doc,
  spans_to_svg zero_time fuel order spans sorted = Some doc -> xml_read (newlines (S k) ++ doc) = None.
Proof.
  intros k zero_time fuel order spans sorted doc H. unfold spans_to_svg in H. destruct (layout _ _ _ _) as [[w rows]|]; [|discriminate].
  destruct (all_some _) as [vs|]; [|discriminate]. apply Some_inj in H. subst doc. unfold svg_document, svg_header. rewrite <- !app_assoc.
  match goal with |- xml_read (_ ++ B ?x ++ ?t) = _ => assert (E : exists y, B x ++ t = B "<?xml " ++ y) by (eexists; reflexivity) end.
  destruct E as [y ->]. unfold xml_read. change (newlines (S k)) with (newline :: newlines k).
  change (xrun ((newline :: newlines k) ++ ?r) (Some (X MStart [] [] [] [] [] [] []))) with (xrun (newlines k ++ r) (Some (X MText [newline] [] [] [] [] [] []))).
  destruct (xrun_newlines k [newline] (B "<?xml " ++ y) eq_refl) as (cur & -> & Hc).
  assert (E : xrun (B "<?xml " ++ y) (Some (X MText cur [] [] [] [] [] [])) = xrun y None).
  { cbn. unfold flush. rewrite Hc. reflexivity. }
  rewrite E, xrun_none. reflexivity.
Qed.
Print Assumptions C77_svg_late.

Definition qgo (n : nat) : list tqact := repeat (QGo true (Returns None) 0) n.
Definition qnotes (l : list wact) : list tqact := map QNote l.
Definition qping : list tqact := [QTick] ++ repeat (QLoop ChTick (Returns None) 0) 3.
(** A ping; then span 0 matches, 1 and 0 finish; the document is written in two parts; another
    ping comes too late. *)
Definition ex77 : list tqact :=
  qping ++ qnotes ([WStart 0 true] ++ wsteps 0 3 ++ [WFinish (ok 1)] ++ wsteps 1 9 ++ [WFinish (ok 0)] ++ wsteps 2 9) ++ qgo 30 ++ qping ++ qgo 10.
Theorem C77_svg_refuted :
  ~ forall info fuel document acts, (forall l, exists zero_time fuel order spans sorted, spans_to_svg zero_time fuel order spans sorted = Some (concat (document l))) ->
      q_returned info fuel document acts TNil -> xml_read (output info fuel document acts) <> None.
Proof.
  intros H. assert (D : forall doc, q_returned chain 5 (fun _ => [doc]) ex77 TNil /\ output chain 5 (fun _ => [doc]) ex77 = newlines 1 ++ doc).
  { intros doc. assert (E : q_pc (q_exec chain 5 (fun _ => [doc]) ex77) = T_done TNil /\ q_log (q_exec chain 5 (fun _ => [doc]) ex77) = [WBegin [newline]; WEnd [newline]; WBegin doc; WEnd doc])
      by (split; vm_compute; reflexivity).
    destruct E as [E1 E2]. split; [exact E1|]. unfold output. rewrite E2. unfold written. cbn [map concat app]. rewrite app_nil_r. reflexivity. }
  destruct (D ex_doc) as [D1 D2]. destruct C73_ex as [X _].
  apply (H chain 5 (fun _ => [ex_doc]) ex77); [|exact D1|].
  - intros l. exists 0%Z, 5, [1; 2]%Z, ex_svg, ex_svg. cbn [concat]. rewrite app_nil_r. exact X.
  - rewrite D2. apply (C77_svg_late 0 _ _ _ _ _ _ X).
Qed.
Print Assumptions C77_svg_refuted.

Definition ex77_doc (_ : option (list fin)) : list bytes := [B "<a>"; B "</a>"].
Example C77_ex :
  q_returned chain 5 ex77_doc ex77 TNil /\ found chain 5 ex77_doc ex77 (Some [ok 0; ok 1]) /\
  q_log (q_exec chain 5 ex77_doc ex77) = [WBegin [newline]; WEnd [newline]; WBegin (B "<a>"); WEnd (B "<a>"); WBegin (B "</a>"); WEnd (B "</a>")].
Proof. split_and!; vm_compute; reflexivity. Qed.
Example C77_spans_ex : let calls := w_calls chain 5 (q_watch (q_exec chain 5 ex77_doc ex77)) in
  distinct_ids chain /\ finish_once chain 5 calls /\ deep_enough chain 5 calls.
Proof.
  assert (E : threads (cl_exec chain 5 (w_calls chain 5 (q_watch (q_exec chain 5 ex77_doc ex77)))) = [KThr (KStart 0 true) (M_done true); KThr (KFinish (ok 1)) (F_done true);
     KThr (KFinish (ok 0)) (F_done true); KThr KSpans (V_done (Some [ok 0; ok 1])); KThr KStop P_done]) by (vm_compute; reflexivity).
  cbn zeta. split_and!; [apply chain_ids| |].
  - intros i j f g pc pc' Hi Hj Hs. unfold cl_thread in Hi, Hj. rewrite E in Hi, Hj.
    destruct i as [|[|[|[|[|i]]]]]; cbn in Hi; try discriminate Hi;
    destruct j as [|[|[|[|[|j]]]]]; cbn in Hj; try discriminate Hj;
    injection Hi as <- <-; injection Hj as <- <-; first [reflexivity|discriminate Hs].
  - intros i f pc Hi. unfold cl_thread in Hi. rewrite E in Hi.
    destruct i as [|[|[|[|[|i]]]]]; cbn in Hi; try discriminate Hi; injection Hi as <- <-; cbn; lia.
Qed.
(** The second ping fails after the client went away. *)
Definition ex77_gone : list tqact := qgo 1 ++ qping ++ [QTick; QLoop ChTick (Returns None) 0; QLoop ChTick (Returns None) 0; QLoop ChTick (Returns (Some (Err 7))) 0].
Example C77_gone_ex : ping_failed chain 5 ex77_doc ex77_gone (Err 7) /\ waits chain 5 ex77_doc ex77_gone /\
  q_returned chain 5 ex77_doc (ex77_gone ++ repeat (QLoop ChTick (Returns None) 0) 2 ++ repeat (QGo false (Returns None) 0) 20) (TWrite (Err 7)).
Proof.
  split_and!; [|vm_compute; reflexivity|vm_compute; reflexivity].
  exists (qgo 1 ++ qping ++ [QTick; QLoop ChTick (Returns None) 0; QLoop ChTick (Returns None) 0]), ChTick, (Returns (Some (Err 7))), 0, []. split_and!; reflexivity.
Qed.
(** The last Write of the document fails halfway. *)
Definition ex77_full : list tqact := qping ++ qnotes ([WStart 0 true] ++ wsteps 0 3 ++ [WFinish (ok 1)] ++ wsteps 1 9 ++ [WFinish (ok 0)] ++ wsteps 2 9) ++ qgo 19.
Example C77_full_ex : q_returned chain 5 ex77_doc (ex77_full ++ [QGo true (Returns (Some (Err 3))) 2]) (TWrite (Err 3)) /\
  output chain 5 ex77_doc (ex77_full ++ [QGo true (Returns (Some (Err 3))) 2]) = [newline] ++ B "<a></".
Proof. split; vm_compute; reflexivity. Qed.
