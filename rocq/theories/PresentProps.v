(** Properties of package present's reports: C44, C45, C62, C63. *)
From Verif Require Import Base Fval PresentModel PresentSpec PresentProofs CounterModel.
Open Scope Z_scope.
Local Arguments B : simpl never.

(** *** C44: DOT labels are safe and lossless *)
Theorem C44_safe :
  forall s, quote ∉ escape_dot s /\ newline ∉ escape_dot s /\
    forall p t, escape_dot s = p ++ backslash :: t -> exists t', t = "l"%char :: t'.
Proof. exact dot_escape_safe. Qed.
Print Assumptions C44_safe.

Theorem C44_injective : forall s t, escape_dot s = escape_dot t -> s = t.
Proof. intros s t. exact (escape_inj s t). Qed.
Print Assumptions C44_injective.

(** In the graph SpansDot draws, the quoted strings are exactly the labels of
    the spans, whatever the names, arguments and annotations. *)
Theorem C44_strings :
  forall roots, dot_strings None (concat (spans_dot_chunks roots)) = flat_map span_labels roots.
Proof. exact spans_dot_strings. Qed.
Print Assumptions C44_strings.

Example C44_example :
  escape_dot (B "a b" ++ [quote; newline; backslash]) = B "a b&#34;" ++ [backslash] ++ B "l&#92;" /\
  dot_strings None (concat (spans_dot_chunks
    [SView 1 1 (B "f" ++ [quote]) [] (B "1s") true [(B "k", B "v" ++ [quote])] [SView 2 1 (B "g") [B "x"] (B "2s") false [] []]])) =
  [B "f&#34;&#40;&#41;" ++ [backslash] ++ B "lelapsed&#58; 1s" ++ [backslash] ++ B "lorphaned" ++ [backslash] ++
     B "lk&#58; v&#34;" ++ [backslash] ++ B "l";
   B "g&#40;x&#41;" ++ [backslash] ++ B "lelapsed&#58; 2s" ++ [backslash] ++ B "l"].
Proof. split; vm_compute; reflexivity. Qed.

(** *** C45: JSON lists are well formed and errors are sticky *)
Theorem C45_complete :
  forall faults s es, exists chunks,
    concat chunks = json_text es /\ delivered faults s chunks (write_list faults s (map Some es)).
Proof. exact write_list_ok. Qed.
Print Assumptions C45_complete.

(** An element that cannot be marshalled ends the list right there. *)
Theorem C45_marshal :
  forall faults s es rest,
    let '(s', e) := write_list faults s (map Some es ++ None :: rest) in
    exists chunks, concat chunks = json_open es /\
      ((e = Some (EMarshal (length es)) /\ delivered faults s chunks (s', None)) \/
       (exists k, e = Some (EWrite k) /\ delivered faults s chunks (s', e))).
Proof. exact write_list_bad. Qed.
Print Assumptions C45_marshal.

(** A Counter that was never set reports NaN, which JSON cannot express: StatsJSON
    stops at the first such value and returns an error, whatever else is registered. *)
Theorem C45_fresh_counter :
  forall faults s (marshal : bytes -> fval -> option bytes) pre post,
    (forall k, marshal k FNaN = None) -> (forall k, faults k = None) ->
    let '(s', e) := write_list faults s (pre ++ map (fun '(f, v) => marshal f v) (counter_Stats counter_new) ++ post) in
    exists es i, sk_out s' = sk_out s ++ json_open es /\ (length es <= length pre)%nat /\ e = Some (EMarshal i).
Proof.
  intros faults s marshal pre post Hm Hf.
  assert (exists es rest, pre ++ map (fun '(f, v) => marshal f v) (counter_Stats counter_new) ++ post =
            map Some es ++ None :: rest /\ (length es <= length pre)%nat) as (es & rest & -> & Hl).
  { assert (exists post', pre ++ map (fun '(f, v) => marshal f v) (counter_Stats counter_new) ++ post = pre ++ None :: post') as (post' & ->).
    { exists (map (fun '(f, v) => marshal f v) (drop 1 (counter_Stats counter_new)) ++ post).
      change (counter_Stats counter_new) with ((B "high", FNaN) :: drop 1 (counter_Stats counter_new)) at 1.
      cbn [map app]. rewrite Hm. reflexivity. }
    clear. induction pre as [|[a|] pre IH].
    - exists [], post'. split; [reflexivity|cbn; lia].
    - destruct IH as (es & rest & E & Hl). exists (a :: es), rest. cbn [map app length]. rewrite E. split; [reflexivity|lia].
    - exists [], (pre ++ None :: post'). split; [reflexivity|cbn; lia]. }
  pose proof (write_list_no_faults faults s es rest Hf) as W.
  destruct (write_list faults s (map Some es ++ None :: rest)) as [s' e]. destruct W as [W1 ->].
  exists es, (length es). auto.
Qed.
Print Assumptions C45_fresh_counter.

(** Over HTTP such a report, if small, comes out as an empty page with status 200. *)
Theorem C45_http_empty :
  forall faults es rest,
    (forall k, faults k = None) -> (length (json_open es) <= 4096)%nat ->
    exists chunks s' i,
      write_list faults (Sink [] 0) (map Some es ++ None :: rest) = (s', Some (EMarshal i)) /\
      sk_out s' = concat chunks /\
      serve_report faults chunks (Some (EMarshal i)) = (200, []).
Proof.
  intros faults es rest Hf Hl. pose proof (write_list_bad faults (Sink [] 0) es rest) as W.
  pose proof (write_list_no_faults faults (Sink [] 0) es rest Hf) as W'.
  destruct (write_list faults (Sink [] 0) (map Some es ++ None :: rest)) as [s' e].
  destruct W as (ch & Hc & _). destruct W' as [E1 ->].
  exists ch, s', (length es). split_and!; [reflexivity| |].
  - rewrite E1, Hc. reflexivity.
  - unfold serve_report. rewrite (small_buffered faults ch (Sink [] 0) []); [reflexivity|].
    cbn [app]. rewrite Hc. exact Hl.
Qed.
Print Assumptions C45_http_empty.

Example C45_example :
  write_list (fun _ => None) (Sink [] 0) [Some (B "1"); Some (B "2")] =
    (Sink (B "[" ++ [newline] ++ B " 1," ++ [newline] ++ B " 2]" ++ [newline]) 4, None) /\
  write_list (fun _ => None) (Sink [] 0) [Some (B "1"); None; Some (B "2")] =
    (Sink (B "[" ++ [newline] ++ B " 1") 2, Some (EMarshal 1)) /\
  write_list (fun k => if (k =? 2)%nat then Some 3%nat else None) (Sink [] 0) [Some (B "1"); Some (B "2"); Some (B "3")] =
    (Sink (B "[" ++ [newline] ++ B " 1," ++ [newline] ++ B " ") 3, Some (EWrite 2)).
Proof. split_and!; vm_compute; reflexivity. Qed.

(** *** C62: reports are written completely or the error is returned *)
Theorem C62_stats_text : forall faults s lines, delivered faults s lines (stats_text faults s lines).
Proof. exact stats_text_delivered. Qed.
Print Assumptions C62_stats_text.

Theorem C62_spans_text : forall faults s roots, delivered faults s (spans_text_chunks roots) (spans_text faults s roots).
Proof. exact spans_text_delivered. Qed.
Print Assumptions C62_spans_text.

Theorem C62_spans_dot : forall faults s roots, delivered faults s (spans_dot_chunks roots) (spans_dot faults s roots).
Proof. exact spans_dot_delivered. Qed.
Print Assumptions C62_spans_dot.

Theorem C62_funcs_dot : forall faults s fs, delivered faults s (funcs_dot_chunks fs) (funcs_dot faults s fs).
Proof. exact funcs_dot_delivered. Qed.
Print Assumptions C62_funcs_dot.

(** FuncsText is complete on a writer that does not fail. *)
Theorem C62_funcs_text :
  forall faults s fs, (forall k, faults k = None) ->
    sk_out (fst (funcs_text faults s fs)) = sk_out s ++ concat (map func_text fs) /\ snd (funcs_text faults s fs) = None.
Proof. intros faults s fs. exact (funcs_text_ok faults fs s). Qed.
Print Assumptions C62_funcs_text.

(** Through FromRequest's buffer no failure goes unnoticed: without an error
    everything arrived; with one, a prefix did. *)
Theorem C62_buffered :
  forall faults s chunks,
    let b := buffered faults s chunks in
    match bf_err b with
    | Some e =>
        (exists k, e = EWrite k /\ faults k <> None /\ sk_calls (bf_sink b) = S k) /\
        exists rest, sk_out (bf_sink b) ++ rest = sk_out s ++ concat chunks
    | None => sk_out (bf_sink b) = sk_out s ++ concat chunks
    end.
Proof. exact buffered_spec. Qed.
Print Assumptions C62_buffered.

(** On a plain writer FuncsText forgets a failure to write a parent: a report
    with a hole in it and no error. *)
Theorem C62_funcs_text_refuted :
  ~ forall faults s fs,
      snd (funcs_text faults s fs) = None ->
      sk_out (fst (funcs_text faults s fs)) = sk_out s ++ concat (map func_text fs).
Proof.
  intros H.
  specialize (H (fun k => if (k =? 1)%nat then Some 0%nat else None) (Sink [] 0)
                [FView 7 (B "f") [Some 3] [] (B "c") None None (B "t")] eq_refl).
  apply (f_equal (@length ascii)) in H. vm_compute in H. discriminate.
Qed.
Print Assumptions C62_funcs_text_refuted.

Example C62_example :
  spans_text (fun _ => None) (Sink [] 0) [SView 1 9 (B "f") [B "x"] (B "1s") false [(B "k", B "v")] []] =
    (Sink (B "[1,9] f(x) (elapsed: 1s)" ++ [newline] ++ B "  k: v" ++ [newline; newline]) 3, None) /\
  spans_text (fun k => if (k =? 1)%nat then Some 2%nat else None) (Sink [] 0)
    [SView 1 9 (B "f") [B "x"] (B "1s") false [(B "k", B "v")] []] =
    (Sink (B "[1,9] f(x) (elapsed: 1s)" ++ [newline] ++ B "  ") 2, Some (EWrite 1)).
Proof. split; vm_compute; reflexivity. Qed.

(** *** C63: keep-alive bytes stay in the buffer *)
(** Up to 4096 pings after [d] is buffered, nothing has been written to the client. *)
Theorem C63_buffered :
  forall faults s d n,
    (length d + n <= 4096)%nat ->
    bf_sink (fold_left (bufio_fprint faults) (d :: repeat [newline] n) (Buf s [] None)) = s.
Proof.
  intros faults s d n H.
  rewrite (small_buffered faults (d :: repeat [newline] n) s []); [reflexivity|].
  cbn [concat app]. rewrite app_length.
  assert (length (concat (repeat [newline] n)) = n) as ->; [|exact H].
  clear. induction n as [|n IH]; [reflexivity|]. cbn [repeat concat app length]. f_equal. exact IH.
Qed.
Print Assumptions C63_buffered.

(** So a ping does not, as intended, reach the client. *)
Theorem C63_refuted :
  ~ forall faults s n,
      (forall k, faults k = None) -> (0 < n)%nat ->
      sk_out (bf_sink (fold_left (bufio_fprint faults) (repeat [newline] n) (Buf s [] None))) <> sk_out s.
Proof. intros H. apply (H (fun _ => None) (Sink [] 0) 1%nat); [reflexivity|lia|reflexivity]. Qed.
Print Assumptions C63_refuted.

(** The next ping after a full buffer does push it out. *)
Example C63_example :
  let b := fold_left (bufio_fprint (fun _ => None)) (repeat [newline] 4097) (Buf (Sink [] 0) [] None) in
  length (sk_out (bf_sink b)) = 4096%nat /\ bf_data b = [newline].
Proof. split; vm_compute; reflexivity. Qed.
