(** Vocabulary for the http properties, independent of the code's helpers. *)
From Verif Require Import Base HttpModel.
Open Scope Z_scope.

(** [s] is a hexadecimal numeral (either case, leading zeros allowed) of value [n]. *)
Definition hex_char (c : ascii) (d : Z) : Prop :=
  0 <= d < 16 /\
  (B "0123456789abcdef" !! Z.to_nat d = Some c \/ B "0123456789ABCDEF" !! Z.to_nat d = Some c).
Inductive hex_num : bytes -> Z -> Prop :=
| hex_one c d : hex_char c d -> hex_num [c] d
| hex_more s n c d : hex_num s n -> hex_char c d -> hex_num (s ++ [c]) (16 * n + d).

(** A hex numeral below 2^64; as an int64, ids at or above 2^63 come out negative. *)
Definition id_field (s : bytes) (v : Z) : Prop :=
  exists n, hex_num s n /\ n < 2 ^ 64 /\ v = if n <? 2 ^ 63 then n else n - 2 ^ 64.

(** A version-0 traceparent: version, trace id, parent id and flags, separated by '-'. *)
Definition traceparent (s : bytes) (t p : Z) (flags : Z) : Prop :=
  exists a b c d,
    s = a ++ dash :: b ++ dash :: c ++ dash :: d /\
    id_field a 0 /\ id_field b t /\ id_field c p /\
    (exists n, hex_num d n /\ n < 2 ^ 64 /\ flags = n).

(** The comma-separated fields of a baggage header. *)
Definition fields (s : bytes) (l : list bytes) : Prop :=
  l <> [] /\ Forall (fun f => comma ∉ f) l /\ s = join [comma] l.
(** A field that sets key [k] to [v]: cut at the first '='. *)
Definition kv_field (f k v : bytes) : Prop := equals ∉ k /\ f = k ++ equals :: v.

(** Baggage that survives the textual form. *)
Definition plain_baggage (b : gmap bytes bytes) : Prop :=
  forall k v, b !! k = Some v -> comma ∉ k /\ equals ∉ k /\ comma ∉ v.

(** Ids as NewId makes them. *)
Definition plain_id (v : Z) : Prop := 0 <= v < 2 ^ 63.
Definition plain_ids (r : trace_info) : Prop :=
  (forall t, ti_trace r = Some t -> plain_id t) /\ (forall p, ti_parent r = Some p -> plain_id p).

(** No trace headers yet. *)
Definition clean_header (h : gmap bytes bytes) : Prop :=
  h !! k_parent = None /\ h !! k_state = None /\ h !! k_baggage = None.

(** The status net/http sends for a sequence of calls: the first WriteHeader
    that is not informational (1xx other than 101) counts; a Write or Flush
    before it commits to 200, and so does returning. *)
Definition informational (c : Z) : bool := (100 <=? c) && (c <=? 199) && negb (c =? 101).
Fixpoint wire_status (l : list wcall) : Z :=
  match l with
  | [] => 200
  | WCode c :: l' => if informational c then wire_status l' else c
  | WBody _ :: _ | WFlush :: _ => 200
  | WGet _ :: l' | WSet _ _ :: l' => wire_status l'
  end.

(** The protocol: at most one WriteHeader, with a final status, before any Write or Flush. *)
Definition header_access (c : wcall) : Prop :=
  match c with WGet _ | WSet _ _ => True | _ => False end.
Definition not_code (c : wcall) : Prop := match c with WCode _ => False | _ => True end.
Definition proper (l : list wcall) : Prop :=
  Forall not_code l \/
  exists pre c post, l = pre ++ WCode c :: post /\ Forall header_access pre /\ Forall not_code post /\
    100 <= c <= 999 /\ informational c = false.

(** A handler that asks for no interface other than http.Flusher. *)
Inductive only_flusher {A} : handler A -> Prop :=
| of_return : only_flusher HReturn
| of_panic : only_flusher HPanic
| of_call c k : (forall a, only_flusher (k a)) -> only_flusher (HCall c k)
| of_flush yes no : (forall a, only_flusher (yes a)) -> only_flusher no -> only_flusher (HFlush yes no)
| of_ask k : (forall b, only_flusher (k b)) -> only_flusher (HAsk IFlusher k).

(** A journey of one trace through services: from the current span either start
    a local child with a new id, or send a traced request (over a request header
    that may already hold anything) whose server starts a span with a new id. *)
Inductive hop :=
| Local (id : Z)
| Remote (h : gmap bytes bytes) (ord : list (bytes * bytes) -> list (bytes * bytes)) (allowed : list bytes) (new_id id : Z).
Definition silent : handler unit := HReturn.
Definition remote_span (s : hspan) h ord allowed new_id id : hspan :=
  sv_span (serve (fun _ (w : unit) => (w, tt)) (fun _ => false)
                 (trace_request s ord h) allowed new_id id [] ord silent tt).
Definition hop_span (s : hspan) (x : hop) : hspan :=
  match x with
  | Local id => HSpan (hs_trace s) (hs_sampled s) id (Some (hs_id s))
  | Remote h ord allowed new_id id => remote_span s h ord allowed new_id id
  end.
Definition hop_id (x : hop) : Z := match x with Local id => id | Remote _ _ _ _ id => id end.
Definition journey (s : hspan) (l : list hop) : hspan := fold_left hop_span l s.
