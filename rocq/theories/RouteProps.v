(** Properties of FromRequest: C46. *)
From Verif Require Import Base BaseProofs Strings HttpModel HttpSpec CallersModel RouteModel RouteSpec RouteProofs.
Open Scope Z_scope.
Local Arguments B : simpl never.

(** Every path has segments, and only they matter. *)
Theorem C46_segments : forall path, exists l, segments path l.
Proof. exact segments_exist. Qed.
Print Assumptions C46_segments.

(** The pages without parameters: exactly the listed ones, with their content type. *)
Theorem C46_pages :
  forall compile url_ok name funcs path l q p ct,
    segments path l ->
    (from_request compile url_ok name funcs path q = APage p ct <-> (take 2 l, p) ∈ pages /\ ct = content_type p).
Proof. intros compile url_ok name funcs path l q p ct. exact (request_page compile url_ok name funcs path l q p ct). Qed.
Print Assumptions C46_pages.

(** A trace page is only given for valid parameters, and matches what they ask for ... *)
Theorem C46_trace :
  forall compile url_ok name funcs path l q k ct m,
    segments path l ->
    from_request compile url_ok name funcs path q = ATrace k ct m ->
    exists s kf b, take 2 l = [B "trace"; s] /\ (s, kf) ∈ trace_pages /\ no_visualizer url_ok q b /\ k = kf b /\ ct = trace_type k /\
      wants compile name funcs q (fun f t => m f t = true).
Proof. intros compile url_ok name funcs path l q k ct m. exact (request_traced compile url_ok name funcs path l q k ct m). Qed.
Print Assumptions C46_trace.

(** ... and it is given whenever they are valid. *)
Theorem C46_trace_given :
  forall compile url_ok name funcs path l q s kf b P,
    segments path l -> take 2 l = [B "trace"; s] -> (s, kf) ∈ trace_pages -> no_visualizer url_ok q b ->
    wants compile name funcs q P ->
    exists m, from_request compile url_ok name funcs path q = ATrace (kf b) (trace_type (kf b)) m /\
      forall f t, m f t = true <-> P f t.
Proof. intros compile url_ok name funcs path l q s kf b P. exact (request_traced_conv compile url_ok name funcs path l q s kf b P). Qed.
Print Assumptions C46_trace_given.

(** Bad requests: exactly the invalid parameters below /trace. *)
Theorem C46_bad_request :
  forall compile url_ok name funcs path l q,
    segments path l ->
    (status_of (from_request compile url_ok name funcs path q) = Some 400 <->
     List.hd [] l = B "trace" /\ ~ exists P, wants compile name funcs q P).
Proof.
  intros compile url_ok name funcs path l q Hl. rewrite <- (request_bad compile url_ok name funcs path l q Hl).
  destruct (from_request compile url_ok name funcs path q); split; intros H; try discriminate H; reflexivity.
Qed.
Print Assumptions C46_bad_request.

(** Not found: exactly what is left. *)
Theorem C46_not_found :
  forall compile url_ok name funcs path l q,
    segments path l ->
    (status_of (from_request compile url_ok name funcs path q) = Some 404 <->
     (forall p, (take 2 l, p) ∉ pages) /\
     (List.hd [] l = B "trace" ->
        (exists P, wants compile name funcs q P) /\ forall s kf, (s, kf) ∈ trace_pages -> take 2 l <> [B "trace"; s])).
Proof.
  intros compile url_ok name funcs path l q Hl.
  pose proof (request_bad compile url_ok name funcs path l q Hl) as Hbad.
  pose proof (fun p ct => request_page compile url_ok name funcs path l q p ct Hl) as Hpage.
  pose proof (fun k ct m => request_traced compile url_ok name funcs path l q k ct m Hl) as Htr.
  assert (Hconv : forall s kf P, take 2 l = [B "trace"; s] -> (s, kf) ∈ trace_pages -> wants compile name funcs q P ->
            exists k ct m, from_request compile url_ok name funcs path q = ATrace k ct m).
  { intros s kf P H1 H2 H3.
    destruct (request_traced_conv compile url_ok name funcs path l q s kf _ P Hl H1 H2 (send_json_spec url_ok q) H3) as (m & E & _). eauto. }
  destruct (from_request compile url_ok name funcs path q) as [p ct|k ct m| |] eqn:E; cbn [status_of]; split; intros H; try discriminate H.
  - exfalso. destruct (Hpage p ct) as [Hp _]. destruct (Hp eq_refl) as [Hin _]. exact (proj1 H p Hin).
  - exfalso. destruct (Htr k ct m eq_refl) as (s & kf & b & Ht & Hs & _). destruct H as [_ H].
    destruct H as [_ H]; [destruct l as [|a [|? ?]]; [discriminate Ht|discriminate Ht|cbn [take List.hd] in *; congruence]|].
    exact (H s kf Hs Ht).
  - exfalso. destruct Hbad as [Hb _]. destruct (Hb eq_refl) as [Ht N]. exact (N (proj1 (proj2 H Ht))).
  - split.
    + intros p Hp. destruct (Hpage p (content_type p)) as [_ Hq]. discriminate (Hq (conj Hp eq_refl)).
    + intros Ht. assert (~ ~ exists P, wants compile name funcs q P) as Hw.
      { intros N. destruct Hbad as [_ Hb]. discriminate (Hb (conj Ht N)). }
      assert (exists P, wants compile name funcs q P) as Hw'.
      { destruct (trace_answer_cases compile url_ok name funcs (List.hd [] (List.tl l)) q) as [[_ N]|(m & Hm & _)]; [destruct (Hw N)|eauto]. }
      split; [exact Hw'|]. destruct Hw' as (P & HP). intros s kf Hs He. destruct (Hconv s kf P He Hs HP) as (k & ct & m & A). discriminate.
  - reflexivity.
Qed.
Print Assumptions C46_not_found.

(** The index page links to a page that does not exist. *)
Theorem C46_index_refuted :
  ~ forall compile url_ok name funcs link,
      link ∈ index_links ->
      exists q, status_of (from_request compile url_ok name funcs (slash :: link) q) <> Some 404.
Proof.
  intros H. destruct (H (fun _ => None) (fun _ => true) (fun _ => []) [] (B "stats/svg")) as (q & Hq).
  - apply (bool_decide_unpack _). vm_compute. exact I.
  - apply Hq. reflexivity.
Qed.
Print Assumptions C46_index_refuted.

Example C46_example :
  let q := Query (B "a") (B "ff") [] [] in
  let compile := fun _ => Some (fun n => beqb n (B "abc")) in
  let name := fun f : nat => if (f =? 1)%nat then B "abc" else B "xyz" in
  from_request compile (fun _ => true) name [1%nat; 2%nat] (B "//ps///json/extra") q = APage PSpansJSON (B "application/json; charset=utf-8") /\
  segments (B "//ps///json/extra") [B "ps"; B "json"; B "extra"] /\
  (exists m, from_request compile (fun _ => true) name [1%nat; 2%nat] (B "/trace/svg") q =
     ATrace TSvg (B "image/svg+xml; charset=utf-8") m /\ m 1%nat 255 = true /\ m 2%nat 255 = false /\ m 1%nat 254 = false) /\
  from_request compile (fun _ => true) name [2%nat] (B "/trace/svg") q = ABadRequest /\
  from_request compile (fun _ => true) name [1%nat] (B "/trace/dot") q = ANotFound /\
  from_request compile (fun _ => true) name [1%nat] (B "/trace/dot") (Query [] [] [] []) = ABadRequest.
Proof.
  cbv zeta. split_and!; try (vm_compute; reflexivity).
  - exists [[]; []; B "ps"; []; []; B "json"; B "extra"]. split_and!; [discriminate|reflexivity| |reflexivity].
    repeat constructor; apply (bool_decide_unpack _); vm_compute; exact I.
  - eexists. split_and!; vm_compute; reflexivity.
Qed.
