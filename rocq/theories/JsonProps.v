(** C79-C80: the JSON reports. *)
From Coq Require Import Sorted.
From Verif Require Import Base BaseProofs PresentModel PresentSpec PresentProofs Conc LayoutModel SvgModel SvgSpec SvgProofs SvgNumProofs ArgsModel ArgsSpec ArgsProofs ArgsProps
  CollectModel CollectSpec CollectProps WatchModel WatchSpec KeepAliveModel KeepAliveSpec TraceQueryModel TraceQuerySpec TraceQueryProofs TraceQueryProofs2 TraceQueryProps JsonModel JsonSpec JsonProofs JsonProofs2 JsonProofs3 JsonProofs4.
Local Open Scope Z_scope.
Local Arguments B : simpl never.

(** * C79: encoding *)
(** Marshal writes JSON in UTF-8 that stands for the value. *)
Theorem C79_value : forall short_bf v, proper v ->
  exists text j, marshal short_bf v = Some text /\ is_json text j /\ stands v j.
Proof.
  intros b v H. exists (json_enc b v), (jval v). split; [apply proper_marshal, H|]. split; [apply enc_json, proper_ok, H|apply proper_stands, H].
Qed.
Print Assumptions C79_value.
(** Strings in UTF-8 are read back exactly. *)
Theorem C79_string : forall short_bf s, utf8_text s -> is_json (json_string short_bf s) (JString s).
Proof. intros b s H. rewrite <- (repl_exact s H) at 2. exact (enc_json b (GString s) eq_refl). Qed.
Print Assumptions C79_string.
(** The text is on one line and has no character that starts markup in HTML. *)
Theorem C79_inline : forall short_bf v text, proper v -> marshal short_bf v = Some text ->
  forall c, c ∈ text -> 32 <= byte c /\ byte c <> 60 /\ byte c <> 62 /\ byte c <> 38.
Proof.
  intros b v text H E c Hc. rewrite (proper_marshal b v H) in E. apply Some_inj in E as <-. apply inline_char.
  pose proof (inline_enc b (depth v) v (le_n _) (proper_ok v H)) as F. rewrite forallb_forall in F. apply F, elem_of_list_In, Hc.
Qed.
Print Assumptions C79_inline.
(** The order in which Go iterates over a map does not matter. *)
Theorem C79_order : forall short_bf l l', NoDup (map fst l) -> l ≡ₚ l' -> json_enc short_bf (GMap l) = json_enc short_bf (GMap l').
Proof. exact enc_order. Qed.
Print Assumptions C79_order.
(** Only a value with a NaN or infinity in it is refused. *)
Theorem C79_refused : forall short_bf s tags field, marshal short_bf (stats_elem s tags field None) = None.
Proof. intros. unfold marshal, stats_elem. cbn [supported forallb]. destruct tags; cbn [supported]; rewrite !andb_false_r; reflexivity. Qed.
Print Assumptions C79_refused.

(** A list writer given such values writes one JSON array, an element per value. *)
Theorem C79_list : forall short_bf vs faults s, Forall proper vs ->
  exists chunks js, is_json (concat chunks) (JArray js) /\ Forall2 stands vs js /\ delivered faults s chunks (json_list short_bf faults s vs).
Proof.
  intros b vs faults s H. destruct (list_document b vs H faults s) as (chunks & E & D). exists chunks, (map jval vs). split; [|split; [|exact D]].
  - rewrite E. apply (document_read b 0), proper_all, H.
  - apply Forall2_map_self. intros v Hv. apply proper_stands. rewrite Forall_forall in H. apply H, Hv.
Qed.
Print Assumptions C79_list.
(** The newlines of the keepalive before it do not hurt: TraceQueryJSON writes JSON if it
    returns nil. *)
Theorem C79_query : forall short_bf info fuel document values acts,
  (forall l, concat (document l) = json_text (map (json_enc short_bf) (values l)) /\ Forall proper (values l)) ->
  q_returned info fuel document acts TNil ->
  exists l js, found info fuel document acts l /\ is_json (output info fuel document acts) (JArray js) /\ Forall2 stands (values l) js.
Proof.
  intros b info fuel document values acts Hd H. destruct (q_complete _ _ _ _ H) as (k & l & F & E & _). destruct (Hd l) as [Ed Hp]. exists l, (map jval (values l)).
  split; [exact F|]. split; [rewrite E, Ed; apply document_read, proper_all, Hp|].
  apply Forall2_map_self. intros v Hv. apply proper_stands. rewrite Forall_forall in Hp. apply Hp, Hv.
Qed.
Print Assumptions C79_query.
(** A report cut short (but for the last newline) is not JSON. *)
Theorem C79_truncated : forall short_bf k vs p q, Forall proper vs ->
  newlines k ++ json_text (map (json_enc short_bf) vs) = p ++ q -> read_json p <> None -> q = [] \/ q = [newline].
Proof. exact document_truncated. Qed.
Print Assumptions C79_truncated.
(** In particular the report with a value that cannot be marshalled. *)
Theorem C79_marshal_error : forall short_bf vs bad rest faults s, Forall proper vs -> marshal short_bf bad = None ->
  let r := json_list short_bf faults s (vs ++ bad :: rest) in
  snd r <> None /\ exists out, sk_out (fst r) = sk_out s ++ out /\ read_json out = None.
Proof.
  intros b vs bad rest faults s H Hb r.
  assert (Er : r = write_list faults s (map Some (map (json_enc b) vs) ++ None :: map (marshal b) rest)).
  { subst r. unfold json_list. rewrite map_app. cbn [map]. rewrite Hb. do 2 f_equal. rewrite map_map. apply map_ext_in. intros v Hv. rewrite Forall_forall in H. apply proper_marshal, H, elem_of_list_In, Hv. }
  pose proof (write_list_bad faults s (map (json_enc b) vs) (map (marshal b) rest)) as W. rewrite <- Er in W. clearbody r. destruct r as [s' e]. cbn [fst snd].
  destruct W as (chunks & Ec & W).
  assert (T : forall out y, concat chunks = out ++ y -> read_json out = None).
  { intros out y Ey. destruct (read_json out) eqn:X; [|reflexivity]. exfalso.
    assert (D : newlines 0 ++ json_text (map (json_enc b) vs) = out ++ (y ++ B "]" ++ [newline])) by (cbn [newlines repeat app]; unfold json_text; rewrite <- Ec, Ey, <- app_assoc; reflexivity).
    destruct (document_truncated b 0 vs out (y ++ B "]" ++ [newline]) H D ltac:(congruence)) as [Q|Q]; apply (f_equal (@length ascii)) in Q; rewrite !app_length in Q; change (length (B "]")) with 1%nat in Q; cbn in Q; lia. }
  destruct W as [[-> D]|(k & -> & D)]; (split; [discriminate|]).
  - destruct D as [_ ->]. exists (concat chunks). split; [reflexivity|]. apply (T _ []). rewrite app_nil_r. reflexivity.
  - destruct D as (i & p & n & Hi & _ & _ & _ & ->). cbn [sk_out]. eexists. split; [reflexivity|]. rewrite <- (take_drop_middle _ _ _ Hi) in Ec. 
    apply (T _ (drop n p ++ concat (drop (S i) chunks))). rewrite <- (take_drop_middle _ _ _ Hi) at 1. rewrite concat_app. cbn [concat].
    rewrite <- (take_drop n p) at 1. rewrite <- !app_assoc. reflexivity.
Qed.
Print Assumptions C79_marshal_error.

(** Not so: strings that are not UTF-8, as values and as keys. *)
Theorem C79_invalid_refuted :
  (exists s s', s <> s' /\ forall short_bf, json_string short_bf s = json_string short_bf s') /\
  (exists l, NoDup (map fst l) /\ proper (GMap l) /\ forall short_bf, exists js, read_json (json_enc short_bf (GMap l)) = Some (JObject js) /\ ~ NoDup (map fst js)).
Proof.
  split.
  - exists [ascii_of_N 254], [ascii_of_N 255]. split; [discriminate|]. intros []; vm_compute; reflexivity.
  - exists [([ascii_of_N 254], GInt 1); ([ascii_of_N 255], GInt 2)].
    assert (N : NoDup (map fst [([ascii_of_N 254], GInt 1); ([ascii_of_N 255], GInt 2)])) by (apply (bool_decide_unpack _); vm_compute; exact I).
    split; [exact N|]. split; [constructor; [exact N|]; repeat (apply Forall_cons_2; [constructor; unfold int64; cbn; lia|]); apply Forall_nil_2|].
    intros b. eexists. split; [destruct b; vm_compute; reflexivity|]. intros D. apply NoDup_cons in D as [D _]. apply D. left.
Qed.
Print Assumptions C79_invalid_refuted.

(** * C80: the reports *)
(** SpansJSON *)
Theorem C80_spans : forall short_bf table short_del other spans faults s,
  Forall (fun e => proper_span (fst e) /\ int64 (snd e)) spans ->
  exists chunks js, is_json (concat chunks) (JArray js) /\ Forall2 (span_object table short_del other) spans js /\
    delivered faults s chunks (json_list short_bf faults s (map (fun e => format_span table short_del other (fst e) (snd e)) spans)).
Proof.
  intros b table sd other spans faults s H. set (g := fun e => format_span table sd other (fst e) (snd e)).
  assert (P : Forall proper (map g spans)) by (apply Forall_forall; intros x Hx; apply elem_of_list_In, in_map_iff in Hx as (e & <- & He); rewrite Forall_forall in H; apply elem_of_list_In in He; destruct (H e He); apply span_proper; assumption).
  destruct (list_document b _ P faults s) as (chunks & E & D). exists chunks, (map jval (map g spans)). split; [rewrite E; apply (document_read b 0), proper_all, P|]. split; [|exact D].
  rewrite map_map. apply Forall2_map_self. intros e He. rewrite Forall_forall in H. destruct (H e He). apply span_ok; assumption.
Qed.
Print Assumptions C80_spans.
(** SpansToJSON, hence TraceQueryJSON *)
Theorem C80_finished : forall short_bf table short_del other spans faults s,
  Forall (fun '(sp, finish, err, panicked) => proper_span sp /\ int64 finish) spans ->
  exists chunks js, is_json (concat chunks) (JArray js) /\ Forall2 (finished_object table short_del other) spans js /\
    delivered faults s chunks (json_list short_bf faults s (map (fun '(sp, finish, err, panicked) => format_finished table short_del other sp finish err panicked) spans)).
Proof.
  intros b table sd other spans faults s H. set (g := fun '(sp, finish, err, panicked) => format_finished table sd other sp finish err panicked).
  assert (P : Forall proper (map g spans)).
  { apply Forall_forall. intros x Hx. apply elem_of_list_In, in_map_iff in Hx as (e & <- & He). rewrite Forall_forall in H. apply elem_of_list_In in He. specialize (H e He).
    destruct e as [[[sp fi] er] pa]. destruct H. apply finished_proper; assumption. }
  destruct (list_document b _ P faults s) as (chunks & E & D). exists chunks, (map jval (map g spans)). split; [rewrite E; apply (document_read b 0), proper_all, P|]. split; [|exact D].
  rewrite map_map. apply Forall2_map_self. intros e He. rewrite Forall_forall in H. specialize (H e He). destruct e as [[[sp fi] er] pa]. destruct H. apply finished_ok; assumption.
Qed.
Print Assumptions C80_finished.
(** FuncsJSON *)
Theorem C80_funcs : forall short_bf funcs faults s,
  Forall proper_func funcs ->
  exists chunks js, is_json (concat chunks) (JArray js) /\
    Forall2 (fun f j => exists success failure, assigned (jd_query (jf_stimes f)) success /\ assigned (jd_query (jf_ftimes f)) failure /\ func_object f success failure j) funcs js /\
    delivered faults s chunks (json_list short_bf faults s (map format_func funcs)).
Proof.
  intros b funcs faults s H.
  assert (P : Forall proper (map format_func funcs)) by (apply Forall_forall; intros x Hx; apply elem_of_list_In, in_map_iff in Hx as (e & <- & He); rewrite Forall_forall in H; apply elem_of_list_In in He; apply func_proper, (H e He)).
  destruct (list_document b _ P faults s) as (chunks & E & D). exists chunks, (map jval (map format_func funcs)). split; [rewrite E; apply (document_read b 0), proper_all, P|]. split; [|exact D].
  rewrite map_map. apply Forall2_map_self. intros f Hf. rewrite Forall_forall in H. eexists _, _. split; [apply quantiles_assigned|]. split; [apply quantiles_assigned|]. apply func_ok, H, Hf.
Qed.
Print Assumptions C80_funcs.
(** StatsJSON: measurement, tags, field, value. *)
Definition stat_object (e : bytes * option (list (bytes * bytes)) * bytes * bytes) (j : json) : Prop :=
  let '(m, tags, field, val) := e in
  exists jm jt jf, j = JArray [jm; jt; jf; JNumber val] /\ a_string m jm /\ a_string field jf /\
    match tags with Some l => a_map a_string l jt | None => jt = JNull end.
Theorem C80_stats : forall short_bf stats faults s,
  Forall (fun '(m, tags, field, val) => number_text val = true /\ forall l, tags = Some l -> NoDup (map fst l)) stats ->
  exists chunks js, is_json (concat chunks) (JArray js) /\ Forall2 stat_object stats js /\
    delivered faults s chunks (json_list short_bf faults s (map (fun '(m, tags, field, val) => stats_elem m tags field (Some val)) stats)).
Proof.
  intros b stats faults s H. set (g := fun '(m, tags, field, val) => stats_elem m tags field (Some val)).
  assert (P : Forall proper (map g stats)).
  { apply Forall_forall. intros x Hx. apply elem_of_list_In, in_map_iff in Hx as (e & <- & He). rewrite Forall_forall in H. apply elem_of_list_In in He. specialize (H e He).
    destruct e as [[[m tags] field] val]. destruct H as [Hv Ht]. constructor. repeat apply Forall_cons_2; try apply Forall_nil_2; try (constructor; assumption); try (constructor; fail).
    destruct tags as [l|]; [|constructor]. constructor; [rewrite map_map; apply (Ht l eq_refl)|]. apply Forall_forall. intros f Hf. apply elem_of_list_In, in_map_iff in Hf as (t & <- & _). constructor. }
  destruct (list_document b _ P faults s) as (chunks & E & D). exists chunks, (map jval (map g stats)). split; [rewrite E; apply (document_read b 0), proper_all, P|]. split; [|exact D].
  rewrite map_map. apply Forall2_map_self. intros e He. rewrite Forall_forall in H. specialize (H e He). destruct e as [[[m tags] field] val]. destruct H as [Hv Ht].
  eexists _, _, _. split; [reflexivity|]. split; [apply str_ok|]. split; [apply str_ok|]. destruct tags as [l|]; [|reflexivity]. apply map_ok; [apply Ht; reflexivity|]. intros f _. apply str_ok.
Qed.
Print Assumptions C80_stats.

(** The arguments of a span can be read back from the report, if they are of the kinds of C78. *)
Theorem C80_args : forall table short_del other e j, Forall plain_arg (js_args (fst e)) -> span_object table short_del other e j ->
  exists l args texts, j = JObject l /\ (B "args", JArray args) ∈ l /\
    Forall2 (fun t a => exists lit, a = JString lit /\ go_unquote lit = Some t) texts args /\ read_args (join (B ", ") texts) = Some (js_args (fst e)).
Proof.
  intros table sd other e j Hp (l & -> & F). exists l.
  assert (In : (B "args", an_array a_literal (span_args table sd other (js_args (fst e)))) ∈ span_start (fst e) ++ [(B "elapsed", an_int (snd e)); (B "orphaned", a_bool (js_orphaned (fst e)))] ++ span_end table sd other (fst e)).
  { unfold span_end. rewrite !elem_of_app. right. right. left. }
  apply elem_of_list_lookup in In as [i Hi]. destruct (Forall2_lookup_l _ _ _ _ _ F Hi) as ([k v] & Hk & En & (args & Ea & Fa)). cbn [fst snd] in En, Ea. subst k v.
  exists args, (span_args table sd other (js_args (fst e))). split; [reflexivity|]. split; [apply elem_of_list_lookup; eauto|]. split; [exact Fa|]. apply args_read, Hp.
Qed.
Print Assumptions C80_args.

(** Not so: an error with an empty message shows as no error; quantiles that look the same with
    two digits share a member. *)
Theorem C80_err_refuted : forall short_bf table short_del other s finish panicked,
  json_enc short_bf (format_finished table short_del other s finish (Some []) panicked) = json_enc short_bf (format_finished table short_del other s finish None panicked).
Proof. reflexivity. Qed.
Print Assumptions C80_err_refuted.
Theorem C80_quantiles_refuted : exists q, NoDup q /\ exists m, assigned q m /\ (length m < length q)%nat.
Proof.
  exists [(B "0.99", 1); (B "0.99", 2)]. split; [apply (bool_decide_unpack _); vm_compute; exact I|]. exists [(B "0.99", 2)]. split; [|cbn; lia].
  exact (quantiles_assigned [(B "0.99", 1); (B "0.99", 2)]).
Qed.
Print Assumptions C80_quantiles_refuted.

(** ** Examples *)
Definition ex_jspan : jspan := JSpan 7 (Some 3) (B "pkg") (B "f<g>") 5 100 false [AString (B "a""b")] [(B "k", [ascii_of_N 255])].
Example C80_ex_span : proper_span ex_jspan /\
  json_enc true (format_span latin true (fun _ => []) ex_jspan 9) =
  B "{""id"":7,""parent_id"":3,""func"":{""package"":""pkg"",""name"":""f\u003cg\u003e""},""trace"":{""id"":5},""start"":100,""elapsed"":9,""orphaned"":false,""args"":[""\""\\\""a\\\\\\\""b\\\""\""""],""annotations"":[[""k"",""\ufffd""]]}".
Proof. split; [|vm_compute; reflexivity]. unfold proper_span, int64; cbn. split_and!; try lia. intros p E. apply Some_inj in E. lia. Qed.
Definition ex_jdist : jdist := JDist 5 4 9 1 3 [(B "0.50", 4); (B "0.00", 1); (B "1.00", 9)].
Definition ex_jfunc : jfunc := JFunc 1 [Some 4; None; Some 2] (B "p") (B "f") 0 1 10 2 [(B "z", 1); (B "a", 3)] ex_jdist ex_jdist.
Example C80_ex_func : proper_func ex_jfunc /\
  json_enc true (format_func ex_jfunc) =
  B "{""id"":1,""parent_ids"":[4,2],""package"":""p"",""name"":""f"",""current"":0,""highwater"":1,""success"":10,""panics"":2,""entry"":true,""errors"":{""a"":3,""z"":1},""success_times"":{""average"":5,""reservoir_average"":4,""full_average"":5,""max"":9,""min"":1,""recent"":3,""quantiles"":{""0.00"":1,""0.50"":4,""1.00"":9}},""failure_times"":{""average"":5,""reservoir_average"":4,""full_average"":5,""max"":9,""min"":1,""recent"":3,""quantiles"":{""0.00"":1,""0.50"":4,""1.00"":9}}}".
Proof.
  split; [|vm_compute; reflexivity].
  assert (D : proper_dist ex_jdist) by (unfold proper_dist, int64; cbn; split_and!; try lia; repeat (apply Forall_cons_2; [cbn; lia|]); apply Forall_nil_2).
  unfold proper_func. cbn. split_and!; try (unfold int64; lia); try exact D.
  - intros p Hp. rewrite !elem_of_cons in Hp. destruct Hp as [E|[E|[E|E]]]; try discriminate E; try (apply Some_inj in E; unfold int64; lia). inversion E.
  - apply (bool_decide_unpack _). vm_compute. exact I.
  - repeat (apply Forall_cons_2; [unfold int64; cbn; lia|]); apply Forall_nil_2.
Qed.
Example C80_ex_stats : number_text (B "-1.5e+300") = true /\
  json_enc true (stats_elem (B "m") (Some [(B "b", B "2"); (B "a", B "1")]) (B "sum") (Some (B "-1.5e+300"))) = B "[""m"",{""a"":""1"",""b"":""2""},""sum"",-1.5e+300]" /\
  json_enc true (stats_elem (B "m") None (B "sum") (Some (B "0"))) = B "[""m"",null,""sum"",0]".
Proof. split_and!; vm_compute; reflexivity. Qed.
Definition ex_values : list gov := [GInt (- 5); GString (B "x")].
Example C79_ex : Forall proper ex_values /\ utf8_text (B "x") /\
  read_json (newlines 2 ++ json_text (map (json_enc true) ex_values)) = Some (JArray [JNumber (B "-5"); JString (B "x")]) /\
  marshal true (GSlice [GFloat None]) = None.
Proof.
  split; [|split_and!; try (vm_compute; reflexivity)].
  - repeat (apply Forall_cons_2; [constructor|]); try apply Forall_nil_2. unfold int64. lia.
  - apply utf8_text_ascii. reflexivity.
Qed.
Example C79_ex_query : let document := fun _ : option (list fin) => [json_text (map (json_enc true) ex_values)] in
  (forall l, concat (document l) = json_text (map (json_enc true) ex_values) /\ Forall proper ex_values) /\ q_returned chain 5 document ex77 TNil.
Proof. cbv zeta. split; [intros l; split; [cbn [concat]; apply app_nil_r|apply C79_ex]|]. vm_compute. reflexivity. Qed.
(** What the reader reads and what it does not. *)
Example C79_ex_reader :
  read_json (B " { ""a"" : [ true , null, 1.5E-3 ] , ""\u00e9\ud83d\ude00"":{} } ") = Some (JObject [(B "a", JArray [JBool true; JNull; JNumber (B "1.5E-3")]); (utf8 233 ++ utf8 128512, JObject [])]) /\
  read_json (B "[1,]") = None /\ read_json (B "[01]") = None /\ read_json (B "{""a"":1,}") = None /\ read_json (B "[1 2]") = None /\ read_json (B """\x""") = None /\
  read_json (B """\ud800""") = None /\ read_json (quote :: newline :: [quote]) = None /\ read_json (B "[1]]") = None /\ read_json (B "nul") = None /\ read_json (B "+1") = None /\ read_json [] = None.
Proof. split_and!; vm_compute; reflexivity. Qed.
