(** Package http: trace headers (http/info.go), the response observer
    (http/http.go), the server handler (http/server.go) and the traced client
    request (http/client.go). *)
From Verif Require Import Base Strings.
Open Scope Z_scope.

Definition dash : ascii := "-".
Definition comma : ascii := ",".
Definition equals : ascii := "=".

(** ** Hexadecimal (standard library, transcribed)

    fmt's "%0<w>x" of an int64 (fmt/format.go fmtInteger): the magnitude as a
    uint64, lower-case digits from the lowest up, zero-padded to [w] bytes (to
    [w-1] when negative), then the sign. A uint64 has at most 16 digits, hence
    the fuel. *)
Definition hex_digit (d : Z) : ascii := List.nth (Z.to_nat d) (B "0123456789abcdef") "0"%char.
Fixpoint hex_go (fuel : nat) (u : Z) (acc : bytes) : bytes :=
  match fuel with
  | O => acc
  | S fuel' =>
      if u <? 16 then hex_digit u :: acc
      else hex_go fuel' (u / 16) (hex_digit (u mod 16) :: acc)
  end.
Definition zeros (n : nat) : bytes := List.repeat "0"%char n.
Definition fmt_hex (w : nat) (v : Z) : bytes :=
  let ds := hex_go 16 (Z.abs v) [] in
  if v <? 0 then dash :: zeros (w - 1 - length ds) ++ ds
  else zeros (w - length ds) ++ ds.

(** strconv.ParseUint(s, 16, 64) (strconv/atoi.go): an empty string, a byte that
    is not a hex digit of either case, and overflow are errors. The loop runs
    on [n]; [cutoff] is maxUint64/16+1 = 2^60. *)
Definition digit_val (c : ascii) : option Z :=
  let x := Z.of_N (N_of_ascii c) in
  let l := Z.lor x 32 in
  if (48 <=? x) && (x <=? 57) then Some (x - 48)
  else if (97 <=? l) && (l <=? 122) then Some (l - 97 + 10)
  else None.
Fixpoint parse_go (cutoff n : Z) (s : bytes) : option Z :=
  match s with
  | [] => Some n
  | c :: s' =>
      match digit_val c with
      | None => None
      | Some d =>
          if 16 <=? d then None
          else if cutoff <=? n then None
          else if u64 (n * 16 + d) <? n * 16 then None
          else parse_go cutoff (u64 (n * 16 + d)) s'
      end
  end.
(** http/info.go 167-170: hexToUint64: the uint64 reinterpreted as an int64. *)
Definition hex_to_uint64 (s : bytes) : option Z :=
  match s with
  | [] => None
  | _ => option_map wrap64 (parse_go (2 ^ 60) 0 s)
  end.

(** strings.Contains and strings.Cut with a one-byte separator. *)
Fixpoint has_prefix (p s : bytes) : bool :=
  match p, s with
  | [], _ => true
  | a :: p', b :: s' => Ascii.eqb a b && has_prefix p' s'
  | _ :: _, [] => false
  end.
Fixpoint contains (p s : bytes) : bool :=
  has_prefix p s || match s with [] => false | _ :: s' => contains p s' end.
Definition cut (c : ascii) (s : bytes) : option (bytes * bytes) :=
  match index_byte c s with
  | Some i => Some (take i s, drop (S i) s)
  | None => None
  end.

(** ** TraceInfo (http/info.go 46-53); a nil map is [None]. *)
Record trace_info := TI {
  ti_trace : option Z;
  ti_parent : option Z;
  ti_sampled : bool;
  ti_baggage : option (gmap bytes bytes)
}.
Definition ti_none : trace_info := TI None None false None.

(** A header: canonical key to (first) value; Get of an absent key is "". *)
Notation header := (gmap bytes bytes) (only parsing).
Definition hget (k : bytes) (h : header) : bytes := default [] (h !! k).
Definition k_parent : bytes := B "traceparent".
Definition k_state : bytes := B "tracestate".
Definition k_baggage : bytes := B "baggage".
Definition sampled_true : bytes := B "sampled=true".

(** info.go 90-101: the baggage loop. *)
Definition import_kv (allowed : list bytes) (bm : gmap bytes bytes) (kv : bytes) : gmap bytes bytes :=
  match cut equals kv with
  | Some (key, value) => if List.existsb (beqb key) allowed then <[key := value]> bm else bm
  | None => bm
  end.
Definition import_baggage (allowed : list bytes) (baggage : bytes) : gmap bytes bytes :=
  match baggage with
  | [] => ∅
  | _ => fold_left (import_kv allowed) (split comma baggage) ∅
  end.

(** info.go 67-118: TraceInfoFromHeader. *)
Definition info_from_header (h : header) (allowed : list bytes) : trace_info :=
  match hget k_parent h with
  | [] => if contains sampled_true (hget k_state h) then TI None None true None else ti_none
  | tp =>
      match split dash tp with
      | [p0; p1; p2; p3] =>
          match hex_to_uint64 p0, hex_to_uint64 p1, hex_to_uint64 p2, hex_to_uint64 p3 with
          | Some version, Some t, Some p, Some flags =>
              if version =? 0
              then TI (Some t) (Some p) (Z.land (flags mod 256) 1 =? 1)
                      (Some (import_baggage allowed (hget k_baggage h)))
              else ti_none
          | _, _, _, _ => ti_none
          end
      | _ => ti_none
      end
  end.

(** info.go 145-164: SetHeader. [ord] is the map iteration order. *)
Definition kv_text (kv : bytes * bytes) : bytes := fst kv ++ equals :: snd kv.
Definition set_header (ord : list (bytes * bytes) -> list (bytes * bytes)) (r : trace_info) (h : header) : header :=
  let h1 :=
    match ti_trace r, ti_parent r with
    | Some t, Some p =>
        <[k_parent := B "00-" ++ fmt_hex 16 t ++ dash :: fmt_hex 8 p ++ dash :: fmt_hex 0 (if ti_sampled r then 1 else 0)]> h
    | _, _ => if ti_sampled r then <[k_state := sampled_true]> h else h
    end in
  match ti_baggage r with
  | Some b => <[k_baggage := join [comma] (map kv_text (ord (map_to_list b)))]> h1
  | None => h1
  end.

(** ** The span seen by the client, through Trace().Id(), the SampledKey value of
    the trace, Id() and ParentId(). *)
Record hspan := HSpan { hs_trace : Z; hs_sampled : bool; hs_id : Z; hs_parent : option Z }.

(** info.go 124-142: TraceInfoFromSpan. *)
Definition info_from_span (s : hspan) : trace_info :=
  if hs_sampled s then
    TI (Some (hs_trace s))
       (Some (match hs_parent s with Some p => p | None => hs_id s end))
       true None
  else TI None None false None.

(** ** The response writer and the handler

    A handler is any program that makes the following calls on its
    http.ResponseWriter, going on after each with the answer it got: reading
    and setting headers through Header(), WriteHeader, Write and, if the writer
    turns out to be an http.Flusher, Flush. It may also ask whether the writer
    has further interfaces. *)
Inductive wcall := WGet (k : bytes) | WSet (k v : bytes) | WCode (c : Z) | WBody (p : bytes) | WFlush.
Inductive iface := IFlusher | IOther (name : bytes).
Inductive handler (A : Type) :=
| HReturn
| HPanic
| HCall (c : wcall) (k : A -> handler A)
| HFlush (yes : A -> handler A) (no : handler A)
| HAsk (i : iface) (k : bool -> handler A).
Arguments HReturn {A}.
Arguments HPanic {A}.
Arguments HCall {A} c k.
Arguments HFlush {A} yes no.
Arguments HAsk {A} i k.

Section writer.
  (** The underlying writer: any state machine answering calls. *)
  Context {W A : Type} (raw : wcall -> W -> W * A) (impl : iface -> bool).

  (** What a run leaves behind: the writer's state, the calls it received in
      order, and whether the handler returned (rather than panicked). *)
  Record ran := Ran { r_state : W; r_calls : list wcall; r_returned : bool }.

  (** The handler given the underlying writer itself. *)
  Fixpoint run_direct (h : handler A) (w : W) (log : list wcall) : ran :=
    match h with
    | HReturn => Ran w log true
    | HPanic => Ran w log false
    | HCall c k => let '(w', a) := raw c w in run_direct (k a) w' (log ++ [c])
    | HFlush yes no =>
        if impl IFlusher
        then let '(w', a) := raw WFlush w in run_direct (yes a) w' (log ++ [WFlush])
        else run_direct no w log
    | HAsk i k => run_direct (k (impl i)) w log
    end.

  (** http/http.go 51-65: the observer's methods on (sc, underlying writer). *)
  Definition observe (c : wcall) (sc : Z) : Z :=
    match c with
    | WCode code => code
    | WBody _ => if sc =? 0 then 200 else sc
    | _ => sc
    end.
  (** http.go 29-44: Wrap: the wrapper is a Flusher iff the writer is one, and
      Flush goes straight to the writer; no other interface is passed on. *)
  Definition wrapped_impl (i : iface) : bool :=
    match i with IFlusher => impl IFlusher | IOther _ => false end.
  Fixpoint run_wrapped (h : handler A) (sc : Z) (w : W) (log : list wcall) : Z * ran :=
    match h with
    | HReturn => (sc, Ran w log true)
    | HPanic => (sc, Ran w log false)
    | HCall c k => let '(w', a) := raw c w in run_wrapped (k a) (observe c sc) w' (log ++ [c])
    | HFlush yes no =>
        if wrapped_impl IFlusher
        then let '(w', a) := raw WFlush w in run_wrapped (yes a) sc w' (log ++ [WFlush])
        else run_wrapped no sc w log
    | HAsk i k => run_wrapped (k (wrapped_impl i)) sc w log
    end.
  (** http.go 67-72: StatusCode. *)
  Definition status_code (sc : Z) : Z := if sc =? 0 then 200 else sc.

  (** ** ServeHTTP (http/server.go 32-72)

      [new_id] is what NewId returns for the trace, [span_id] the id of the new
      span, [uri] the request URI, [ord] the iteration order of the baggage
      map. The annotation of the response code is kept as a number (its decimal
      rendering by fmt.Sprint is not modelled). Trace observers and the
      SampledCBKey callback are outside this model. *)
  Inductive aval := AText (v : bytes) | ACode (c : Z).
  Record served := Served { sv_span : hspan; sv_annotations : list (bytes * aval); sv_run : ran }.
  Definition k_trace_id : bytes := B "trace-id".
  Definition k_child_id : bytes := B "child-id".
  Definition serve (hd : header) (allowed : list bytes) (new_id span_id : Z) (uri : bytes)
      (ord : list (bytes * bytes) -> list (bytes * bytes)) (h : handler A) (w : W) : served :=
    let info := info_from_header hd allowed in
    let t := default new_id (ti_trace info) in
    let p := default 0 (ti_parent info) in
    let sp := HSpan t (ti_sampled info) span_id (Some p) in
    let an := map (fun kv => (fst kv, AText (snd kv))) (ord (map_to_list (default ∅ (ti_baggage info)))) ++
              [(B "http.uri", AText uri)] in
    let own := match ti_parent info with
               | None => if ti_sampled info
                         then [WSet k_trace_id (fmt_hex 0 t); WSet k_child_id (fmt_hex 0 span_id)] else []
               | Some _ => []
               end in
    let w1 := fold_left (fun w c => fst (raw c w)) own w in
    let '(sc, r) := run_wrapped h 0 w1 own in
    Served sp (if r_returned r then an ++ [(B "http.responsecode", ACode (status_code sc))] else an) r.
End writer.
Arguments ran W : clear implicits.
Arguments served W : clear implicits.

(** ** TraceRequest (http/client.go 17-30): the span is a new child in the
    context's trace (see CtxModel); the headers it puts on the request. *)
Definition trace_request (s : hspan) (ord : list (bytes * bytes) -> list (bytes * bytes)) (h : header) : header :=
  set_header ord (info_from_span s) h.
(** ... and what it annotates: the URL, then the response code if Do succeeded
    (client.go 22, 25-28). *)
Definition request_annotations (url : bytes) (answer : option Z) : list (bytes * aval) :=
  (B "http.uri", AText url) ::
  match answer with Some code => [(B "http.responsecode", ACode code)] | None => [] end.
