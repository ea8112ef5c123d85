(** Properties of package http: C40-C43, C61. *)
From Verif Require Import Base Strings ScopeSpec HttpModel HttpSpec HttpProofs.
Open Scope Z_scope.

(** *** C40: trace headers round-trip *)
(** Whatever the request header held before and whatever baggage is allowed. *)
Theorem C40_ids :
  forall ord r h allowed t p,
    ti_trace r = Some t -> ti_parent r = Some p -> plain_id t -> plain_id p ->
    let r' := info_from_header (set_header ord r h) allowed in
    ti_trace r' = Some t /\ ti_parent r' = Some p /\ ti_sampled r' = ti_sampled r.
Proof. exact round_trip_ids. Qed.
Print Assumptions C40_ids.

(** Without both ids, only the sampling flag survives. *)
Theorem C40_no_ids :
  forall ord r h allowed,
    ti_trace r = None \/ ti_parent r = None -> clean_header h ->
    info_from_header (set_header ord r h) allowed = TI None None (ti_sampled r) None.
Proof. exact round_trip_no_ids. Qed.
Print Assumptions C40_no_ids.

(** With a negative id the receiver gets nothing. *)
Theorem C40_negative :
  forall ord r h allowed t p,
    ti_trace r = Some t -> ti_parent r = Some p -> t < 0 \/ p < 0 ->
    info_from_header (set_header ord r h) allowed = ti_none.
Proof. exact round_trip_negative. Qed.
Print Assumptions C40_negative.

(** So the claim for all int64 ids is false. *)
Theorem C40_refuted :
  ~ (forall ord r h allowed t p,
       any_order ord -> ti_trace r = Some t -> ti_parent r = Some p -> in64 t -> in64 p ->
       ti_trace (info_from_header (set_header ord r h) allowed) = Some t).
Proof.
  intros H. specialize (H (fun l => l) (TI (Some (-1)) (Some 1) true None) ∅ [] (-1) 1).
  rewrite (C40_negative (fun l => l) (TI (Some (-1)) (Some 1) true None) ∅ [] (-1) 1 eq_refl eq_refl ltac:(lia)) in H.
  assert (ti_trace ti_none = Some (-1)) by (apply H; [intros l; reflexivity|reflexivity|reflexivity|split; lia|split; lia]). discriminate.
Qed.
Print Assumptions C40_refuted.
(** Nor does the id-less case hold on a header that is being reused: SetHeader
    leaves a stale traceparent in place. *)
Theorem C40_reuse_refuted :
  ~ (forall ord r h allowed, any_order ord ->
       ti_trace r = None -> ti_parent r = None ->
       ti_trace (info_from_header (set_header ord r h) allowed) = None).
Proof.
  intros H. specialize (H (fun l => l) (TI None None false None) {[k_parent := B "00-01-02-1"]} [] (fun l => reflexivity l) eq_refl eq_refl).
  vm_compute in H. discriminate.
Qed.
Print Assumptions C40_reuse_refuted.

Example C40_ex_plain : plain_id 5 /\ plain_id (2 ^ 63 - 1).
Proof. split; split; lia. Qed.
Example C40_ex_text :
  hget k_parent (set_header (fun l => l) (TI (Some 100) (Some 255) true None) ∅) = B "00-0000000000000064-000000ff-1".
Proof. vm_compute. reflexivity. Qed.
Example C40_ex_negative :
  hget k_parent (set_header (fun l => l) (TI (Some (-100)) (Some 255) true None) ∅) = B "00--000000000000064-000000ff-1".
Proof. vm_compute. reflexivity. Qed.
Example C40_ex_clean : clean_header ∅.
Proof. split_and!; reflexivity. Qed.

(** *** C41: baggage round-trips and is filtered *)
Theorem C41_round_trip :
  forall ord r h allowed t p b, any_order ord ->
    ti_trace r = Some t -> ti_parent r = Some p -> plain_id t -> plain_id p ->
    ti_baggage r = Some b -> plain_baggage b ->
    exists b', ti_baggage (info_from_header (set_header ord r h) allowed) = Some b' /\
      forall k, b' !! k = if decide (k ∈ allowed) then b !! k else None.
Proof. exact round_trip_baggage. Qed.
Print Assumptions C41_round_trip.

(** For every header: exactly the allowed keys are imported, each with the value
    of its last field. *)
Theorem C41_read :
  forall h allowed t p flags l,
    traceparent (hget k_parent h) t p flags -> fields (hget k_baggage h) l ->
    exists b, ti_baggage (info_from_header h allowed) = Some b /\
      forall k v, b !! k = Some v <->
        k ∈ allowed /\
        exists pre f post, l = pre ++ f :: post /\ kv_field f k v /\ forall g w, g ∈ post -> ~ kv_field g k w.
Proof. exact baggage_read. Qed.
Print Assumptions C41_read.

Theorem C41_allowed :
  forall h allowed b k v, ti_baggage (info_from_header h allowed) = Some b -> b !! k = Some v -> k ∈ allowed.
Proof. exact baggage_allowed. Qed.
Print Assumptions C41_allowed.

(** Hence a client cannot put annotations of its choosing on the server's span. *)
Theorem C41_annotations :
  forall W A (raw : wcall -> W -> W * A) impl hd allowed nid sid uri ord h w k v, any_order ord ->
    (k, v) ∈ sv_annotations (serve raw impl hd allowed nid sid uri ord h w) ->
    k ∈ allowed \/ k = B "http.uri" \/ k = B "http.responsecode".
Proof. intros W A. exact serve_annotations_allowed. Qed.
Print Assumptions C41_annotations.

(** The provisos are needed: a ',' in a value splits it. *)
Theorem C41_comma_refuted :
  ~ (forall r h t p b, ti_trace r = Some t -> ti_parent r = Some p -> plain_id t -> plain_id p -> ti_baggage r = Some b ->
       forall k, k ∈ [B "a"] -> match ti_baggage (info_from_header (set_header (fun l => l) r h) [B "a"]) with
         | Some b' => b' !! k = b !! k | None => False end).
Proof.
  intros H. specialize (H (TI (Some 1) (Some 2) true (Some {[B "a" := B "x,y"]})) ∅ 1 2 {[B "a" := B "x,y"]} eq_refl eq_refl
    ltac:(split; lia) ltac:(split; lia) eq_refl (B "a") ltac:(constructor)).
  vm_compute in H. discriminate.
Qed.
Print Assumptions C41_comma_refuted.

Example C41_ex_plain : plain_baggage {[B "user" := B "x=y"]}.
Proof.
  intros k v H. apply lookup_singleton_Some in H as [<- <-].
  split_and!; apply (bool_decide_unpack _); vm_compute; exact I.
Qed.
Example C41_ex :
  option_map map_to_list (ti_baggage (info_from_header (<[k_baggage := B "a=1,b=2,a=3=4"]> {[k_parent := B "00-1-2-0"]}) [B "a"])) =
    Some [(B "a", B "3=4")].
Proof. vm_compute. reflexivity. Qed.
Example C41_ex_fields : fields (B "a=1,b=2") [B "a=1"; B "b=2"].
Proof. split; [discriminate|]. split; [|reflexivity]. repeat constructor; apply (bool_decide_unpack _); vm_compute; exact I. Qed.

(** *** C42: malformed trace headers are ignored as a whole *)
Theorem C42_ids :
  forall h allowed t p,
    ti_trace (info_from_header h allowed) = Some t /\ ti_parent (info_from_header h allowed) = Some p <->
    exists flags, traceparent (hget k_parent h) t p flags.
Proof. exact info_ids. Qed.
Print Assumptions C42_ids.

(** The sampling flag is the lowest bit of the flags. *)
Theorem C42_sampled :
  forall h allowed t p flags, traceparent (hget k_parent h) t p flags ->
    ti_sampled (info_from_header h allowed) = Z.odd flags.
Proof. exact (fun h allowed t p f H => f_equal ti_sampled (info_traceparent h allowed t p f H)). Qed.
Print Assumptions C42_sampled.

Theorem C42_both_or_neither :
  forall h allowed, ti_trace (info_from_header h allowed) = None <-> ti_parent (info_from_header h allowed) = None.
Proof. exact info_both. Qed.
Print Assumptions C42_both_or_neither.

Theorem C42_malformed :
  forall h allowed, hget k_parent h <> [] -> (forall t p f, ~ traceparent (hget k_parent h) t p f) ->
    info_from_header h allowed = ti_none.
Proof. exact info_malformed. Qed.
Print Assumptions C42_malformed.

(** In particular any trace id that needs more than 64 bits. *)
Theorem C42_long_ids :
  forall h allowed a b rest n, dash ∉ a -> hget k_parent h = a ++ dash :: b ++ dash :: rest -> hex_num b n -> 2 ^ 64 <= n ->
    info_from_header h allowed = ti_none.
Proof. exact info_long. Qed.
Print Assumptions C42_long_ids.

Example C42_ex_ok : traceparent (B "00-0A-ff-3") 10 255 3.
Proof.
  assert (N : forall s v, hex_to_uint64 s = Some v -> id_field s v) by (intros s v; apply hex_to_uint64_spec).
  exists (B "00"), (B "0A"), (B "ff"), (B "3"). split; [reflexivity|]. split_and!; [apply N; vm_compute; reflexivity..|].
  exists 3. split_and!; [|lia|reflexivity]. apply (hex_one "3" 3). split; [lia|left; reflexivity].
Qed.
(** The example of the W3C specification is rejected. *)
Example C42_ex_w3c :
  info_from_header {[k_parent := B "00-4bf92f3577b34da6a3ce929d0e0e4736-00f067aa0ba902b7-01"]} [] = ti_none.
Proof. vm_compute. reflexivity. Qed.
Example C42_ex_malformed : info_from_header {[k_parent := B "00-1-2-1-9"]} [] = ti_none.
Proof. vm_compute. reflexivity. Qed.

(** *** C43: recorded HTTP status *)
(** For every underlying writer and every handler: what the handler does through
    the wrapper reaches the writer exactly as if it held the writer itself. *)
Theorem C43_transparent :
  forall W A (raw : wcall -> W -> W * A) impl h, only_flusher h -> forall sc w log,
    snd (run_wrapped raw impl h sc w log) = run_direct raw impl h w log.
Proof. intros W A. exact wrapped_transparent. Qed.
Print Assumptions C43_transparent.

Theorem C43_status :
  forall W A (raw : wcall -> W -> W * A) impl h w,
    let '(sc, r) := run_wrapped raw impl h 0 w [] in
    proper (r_calls r) -> status_code sc = wire_status (r_calls r).
Proof. intros W A. exact wrapped_status. Qed.
Print Assumptions C43_status.

(** ... and this is the code ServeHTTP annotates when the handler returns. *)
Theorem C43_annotated :
  forall W A (raw : wcall -> W -> W * A) impl hd allowed nid sid uri ord h w,
    let sv := serve raw impl hd allowed nid sid uri ord h w in
    r_returned (sv_run sv) = true -> proper (r_calls (sv_run sv)) ->
    last (sv_annotations sv) = Some (B "http.responsecode", ACode (wire_status (r_calls (sv_run sv)))).
Proof. intros W A. exact serve_code. Qed.
Print Assumptions C43_annotated.

(** The client's span gets the same code: if the response arrives with the status the
    server sent, both spans carry the same http.responsecode; without a response the
    client's carries none. *)
Theorem C43_both_ends :
  forall W A (raw : wcall -> W -> W * A) impl hd allowed nid sid uri ord h w url,
    let sv := serve raw impl hd allowed nid sid uri ord h w in
    r_returned (sv_run sv) = true -> proper (r_calls (sv_run sv)) ->
    (forall a, (B "http.responsecode", a) ∈ request_annotations url (Some (wire_status (r_calls (sv_run sv)))) <->
      last (sv_annotations sv) = Some (B "http.responsecode", a)) /\
    forall a, (B "http.responsecode", a) ∉ request_annotations url None.
Proof.
  intros W A raw impl hd allowed nid sid uri ord h w url sv Hr Hp.
  assert (N : B "http.responsecode" <> B "http.uri") by (apply (bool_decide_unpack _); vm_compute; exact I).
  pose proof (serve_code raw impl hd allowed nid sid uri ord h w Hr Hp) as E. fold sv in E. rewrite E. unfold request_annotations. split; intros a.
  - rewrite elem_of_cons, elem_of_list_singleton. split.
    + intros [H|H]; [apply pair_equal_spec in H as [H _]; destruct (N H)|]. rewrite H. reflexivity.
    + intros H. right. apply Some_inj in H. symmetry. exact H.
  - intros H. apply elem_of_list_singleton, pair_equal_spec in H as [H _]. exact (N H).
Qed.
Print Assumptions C43_both_ends.

(** A writer that answers nothing of interest. *)
Definition mute (c : wcall) (w : unit) : unit * unit := (w, tt).

(** Outside the protocol the recorded code differs: WriteHeader after Flush, ... *)
Theorem C43_flush_refuted :
  exists h : handler unit, let '(sc, r) := run_wrapped mute (fun _ => true) h 0 tt [] in
    status_code sc = 500 /\ wire_status (r_calls r) = 200.
Proof. exists (HFlush (fun _ => HCall (WCode 500) (fun _ => HReturn)) HReturn). vm_compute. auto. Qed.
Print Assumptions C43_flush_refuted.
(** ... a second WriteHeader, ... *)
Theorem C43_twice_refuted :
  exists h : handler unit, let '(sc, r) := run_wrapped mute (fun _ => true) h 0 tt [] in
    status_code sc = 500 /\ wire_status (r_calls r) = 200.
Proof. exists (HCall (WCode 200) (fun _ => HCall (WCode 500) (fun _ => HReturn))). vm_compute. auto. Qed.
Print Assumptions C43_twice_refuted.
(** ... or an informational status before the body. *)
Theorem C43_informational_refuted :
  exists h : handler unit, let '(sc, r) := run_wrapped mute (fun _ => true) h 0 tt [] in
    status_code sc = 103 /\ wire_status (r_calls r) = 200.
Proof. exists (HCall (WCode 103) (fun _ => HCall (WBody (B "x")) (fun _ => HReturn))). vm_compute. auto. Qed.
Print Assumptions C43_informational_refuted.
(** The wrapper hides all other interfaces of the writer. *)
Theorem C43_interfaces_refuted :
  ~ (forall (h : handler unit), snd (run_wrapped mute (fun _ => true) h 0 tt []) = run_direct mute (fun _ => true) h tt []).
Proof. intros H. specialize (H (HAsk (IOther (B "http.Hijacker")) (fun b => if b then HPanic else HReturn))). vm_compute in H. discriminate. Qed.
Print Assumptions C43_interfaces_refuted.

Example C43_ex_proper : proper [WSet (B "a") (B "b"); WCode 404; WBody (B "x"); WFlush].
Proof. right. exists [WSet (B "a") (B "b")], 404, [WBody (B "x"); WFlush]. split_and!; try reflexivity; try lia; repeat constructor. Qed.
Example C43_ex_run : 
  run_wrapped mute (fun _ => true) (HCall (WCode 404) (fun _ => HFlush (fun _ => HCall (WBody (B "x")) (fun _ => HReturn)) HPanic)) 0 tt [] =
    (404, Ran tt [WCode 404; WFlush; WBody (B "x")] true).
Proof. reflexivity. Qed.

(** *** C61: a sampled trace is carried across services *)
(** The server's span belongs to the client's trace and is sampled. Its parent
    is the parent of the client's span, or that span itself if it has none. *)
Theorem C61_propagated :
  forall W A (raw : wcall -> W -> W * A) impl s ord h allowed nid sid uri ord' hd w,
    hs_sampled s = true -> plain_id (hs_trace s) -> plain_id (hs_id s) -> (forall p, hs_parent s = Some p -> plain_id p) ->
    sv_span (serve raw impl (trace_request s ord h) allowed nid sid uri ord' hd w) =
    HSpan (hs_trace s) true sid (Some (default (hs_id s) (hs_parent s))).
Proof. intros W A. exact propagate. Qed.
Print Assumptions C61_propagated.

(** Across any number of local children and requests, in any order, the trace
    id and the sampling decision never change. *)
Theorem C61_journey :
  forall l s,
    hs_sampled s = true -> plain_id (hs_trace s) -> plain_id (hs_id s) -> (forall p, hs_parent s = Some p -> plain_id p) ->
    Forall (fun x => plain_id (hop_id x)) l ->
    hs_trace (journey s l) = hs_trace s /\ hs_sampled (journey s l) = true.
Proof. exact journey_trace. Qed.
Print Assumptions C61_journey.

(** An unsampled client leaves the server to start an unsampled trace of its own. *)
Theorem C61_unsampled :
  forall W A (raw : wcall -> W -> W * A) impl s ord h allowed nid sid uri ord' hd w,
    hs_sampled s = false -> clean_header h ->
    sv_span (serve raw impl (trace_request s ord h) allowed nid sid uri ord' hd w) = HSpan nid false sid (Some 0).
Proof. intros W A. exact propagate_unsampled. Qed.
Print Assumptions C61_unsampled.

(** A request that only asks for sampling gets a new sampled trace and is told
    its ids in the response headers, before anything the handler does. *)
Theorem C61_orphan :
  forall W A (raw : wcall -> W -> W * A) impl hd allowed nid sid uri ord h w,
    hget k_parent hd = [] -> (exists u t, hget k_state hd = u ++ sampled_true ++ t) ->
    let sv := serve raw impl hd allowed nid sid uri ord h w in
    sv_span sv = HSpan nid true sid (Some 0) /\
    exists l, r_calls (sv_run sv) = WSet k_trace_id (fmt_hex 0 nid) :: WSet k_child_id (fmt_hex 0 sid) :: l.
Proof. intros W A. exact serve_orphan. Qed.
Print Assumptions C61_orphan.

(** The server's span is in general not a child of the client's span: when that
    span has a parent, they become siblings. *)
Theorem C61_parent_refuted :
  ~ (forall s h nid sid,
       hs_sampled s = true -> plain_id (hs_trace s) -> plain_id (hs_id s) -> (forall p, hs_parent s = Some p -> plain_id p) ->
       hs_parent (remote_span s h (fun l => l) [] nid sid) = Some (hs_id s)).
Proof.
  intros H. specialize (H (HSpan 1 true 3 (Some 2)) ∅ 7 8 eq_refl ltac:(split; cbn; lia) ltac:(split; cbn; lia)).
  cbn [hs_id hs_parent] in H. unfold remote_span in H.
  rewrite C61_propagated in H; try reflexivity; try (split; cbn; lia).
  - specialize (H ltac:(intros p E; assert (p = 2) by congruence; subst; split; lia)). cbn in H. discriminate.
  - intros p E. cbn in E. assert (p = 2) by congruence. subst. split; lia.
Qed.
Print Assumptions C61_parent_refuted.

Example C61_ex :
  journey (HSpan 1 true 3 None) [Local 4; Remote ∅ (fun l => l) [] 99 5; Local 6; Remote ∅ (fun l => l) [] 98 7] = HSpan 1 true 7 (Some 5).
Proof. vm_compute. reflexivity. Qed.
Example C61_ex_orphan : exists u t, B "x=1,sampled=true" = u ++ sampled_true ++ t.
Proof. exists (B "x=1,"), []. reflexivity. Qed.
