(** Vocabulary for C79-C80: a JSON reader after RFC 8259, and what values stand for. *)
From Coq Require Import Sorted.
From Verif Require Import Base PresentModel SvgModel SvgSpec ArgsModel ArgsSpec JsonModel.
Local Open Scope Z_scope.

Inductive json :=
| JNull | JBool (b : bool) | JNumber (text : bytes) | JString (s : bytes) | JArray (l : list json) | JObject (l : list (bytes * json)).

(** ** Reading *)
Definition json_space (c : ascii) : bool := let n := byte c in (n =? 32) || (n =? 9) || (n =? 10) || (n =? 13).
Fixpoint skip_space (s : bytes) : bytes := match s with c :: s' => if json_space c then skip_space s' else s | [] => [] end.
(** RFC 8259, section 7: the rest of a string whose opening quote has been read; its value, in
    UTF-8, and what follows.  Surrogates have to come in pairs. *)
Definition json_escape (c : ascii) : option Z :=
  let n := byte c in
  if n =? 34 then Some 34 else if n =? 92 then Some 92 else if n =? 47 then Some 47 else if n =? 98 then Some 8
  else if n =? 102 then Some 12 else if n =? 110 then Some 10 else if n =? 114 then Some 13 else if n =? 116 then Some 9 else None.
Definition surrogates (hi lo : option Z) : option Z :=
  match hi, lo with
  | Some h, Some l => if (55296 <=? h) && (h <? 56320) && (56320 <=? l) && (l <? 57344) then Some (65536 + (h - 55296) * 1024 + (l - 56320)) else None
  | _, _ => None
  end.
Fixpoint read_string (s : bytes) : option (bytes * bytes) :=
  match s with
  | [] => None
  | c :: s1 =>
      if byte c =? 34 then Some ([], s1)
      else if byte c <? 32 then None
      else if byte c =? 92 then
        match s1 with
        | [] => None
        | e :: s2 =>
            match json_escape e with
            | Some v => add_chars (utf8 v) (read_string s2)
            | None =>
                if byte e =? 117 then
                  match s2 with
                  | a :: b :: c :: d :: s3 =>
                      match rune_bytes [a; b; c; d] with
                      | Some x => add_chars x (read_string s3)
                      | None =>
                          match s3 with
                          | x :: y :: a' :: b' :: c' :: d' :: s4 =>
                              if (byte x =? 92) && (byte y =? 117) then
                                match surrogates (hex_number 0 [a; b; c; d]) (hex_number 0 [a'; b'; c'; d']) with
                                | Some r => add_chars (utf8 r) (read_string s4)
                                | None => None
                                end
                              else None
                          | _ => None
                          end
                      end
                  | _ => None
                  end
                else None
            end
        end
      else add_chars [c] (read_string s1)
  end.
(** Section 6: numbers.  The characters numbers are made of, as far as they go, ... *)
Definition is_digit (c : ascii) : bool := (48 <=? byte c) && (byte c <=? 57).
Definition number_char (c : ascii) : bool := is_digit c || (byte c =? 43) || (byte c =? 45) || (byte c =? 46) || (byte c =? 101) || (byte c =? 69).
Fixpoint span_of (p : ascii -> bool) (s : bytes) : bytes * bytes :=
  match s with
  | c :: s' => if p c then let (x, y) := span_of p s' in (c :: x, y) else ([], s)
  | [] => ([], [])
  end.
(** ... have to be: minus, an integer without leading zeros, a fraction, an exponent. *)
Definition digits1 (s : bytes) : bool := match s with [] => false | _ => forallb is_digit s end.
Definition number_int (s : bytes) : bool := digits1 s && match s with c :: _ :: _ => negb (byte c =? 48) | _ => true end.
Definition number_exp (s : bytes) : bool :=
  match s with
  | [] => true
  | c :: s' => ((byte c =? 101) || (byte c =? 69)) && digits1 (match s' with d :: s'' => if (byte d =? 43) || (byte d =? 45) then s'' else s' | [] => [] end)
  end.
Definition number_frac (s : bytes) : bool :=
  match s with
  | c :: s' => if byte c =? 46 then let (f, e) := span_of is_digit s' in digits1 f && number_exp e else number_exp s
  | [] => true
  end.
Definition number_text (s : bytes) : bool :=
  let s' := match s with c :: s' => if byte c =? 45 then s' else s | [] => [] end in
  let (i, r) := span_of is_digit s' in number_int i && number_frac r.
(** Sections 4 and 5: things read by [read], separated by commas, up to [close]. *)
Fixpoint read_items {A} (read : bytes -> option (A * bytes)) (close : Z) (fuel : nat) (s : bytes) : option (list A * bytes) :=
  match fuel with
  | O => None
  | S fuel' =>
      match read s with
      | Some (a, rest) =>
          match skip_space rest with
          | c :: rest' =>
              if byte c =? 44 then match read_items read close fuel' rest' with Some (l, r) => Some (a :: l, r) | None => None end
              else if byte c =? close then Some ([a], rest') else None
          | [] => None
          end
      | None => None
      end
  end.
Definition read_list_of {A} (read : bytes -> option (A * bytes)) (close : Z) (s : bytes) : option (list A * bytes) :=
  match skip_space s with
  | c :: s' => if byte c =? close then Some ([], s') else read_items read close (length s) s
  | [] => None
  end.
Definition read_member (read : bytes -> option (json * bytes)) (s : bytes) : option (bytes * json * bytes) :=
  match skip_space s with
  | c :: s1 =>
      if byte c =? 34 then
        match read_string s1 with
        | Some (k, s2) =>
            match skip_space s2 with
            | d :: s3 => if byte d =? 58 then match read s3 with Some (v, rest) => Some (k, v, rest) | None => None end else None
            | [] => None
            end
        | None => None
        end
      else None
  | [] => None
  end.
Fixpoint read_value (depth : nat) (s : bytes) : option (json * bytes) :=
  match depth with
  | O => None
  | S depth' =>
      match skip_space s with
      | [] => None
      | c :: s1 =>
          if byte c =? 34 then match read_string s1 with Some (v, rest) => Some (JString v, rest) | None => None end
          else if byte c =? 91 then match read_list_of (read_value depth') 93 s1 with Some (l, rest) => Some (JArray l, rest) | None => None end
          else if byte c =? 123 then match read_list_of (read_member (read_value depth')) 125 s1 with Some (l, rest) => Some (JObject l, rest) | None => None end
          else
            let s := c :: s1 in
            match strip (B "null") s, strip (B "true") s, strip (B "false") s with
            | Some rest, _, _ => Some (JNull, rest)
            | _, Some rest, _ => Some (JBool true, rest)
            | _, _, Some rest => Some (JBool false, rest)
            | _, _, _ => let (t, rest) := span_of number_char s in if number_text t then Some (JNumber t, rest) else None
            end
      end
  end.
(** A whole text: one value, and space around it.  JSON text is UTF-8. *)
Definition read_json (s : bytes) : option json :=
  match read_value (length s) s with
  | Some (v, rest) => match skip_space rest with [] => Some v | _ => None end
  | None => None
  end.
Definition utf8_text (s : bytes) : Prop := exists rs, Forall (fun r => scalarb r = true) rs /\ s = concat (map utf8 rs).
Definition is_json (s : bytes) (v : json) : Prop := read_json s = Some v /\ utf8_text s.

(** ** Values *)
(** [t] is [s] with each byte that is not part of UTF-8 replaced by U+FFFD. *)
Inductive replaced : bytes -> bytes -> Prop :=
| replaced_nil : replaced [] []
| replaced_rune r s t : scalarb r = true -> replaced s t -> replaced (utf8 r ++ s) (utf8 r ++ t)
| replaced_byte c s t : (forall r s', scalarb r = true -> c :: s <> utf8 r ++ s') -> replaced s t -> replaced (c :: s) (utf8 65533 ++ t).
Definition a_string (s : bytes) (j : json) : Prop := exists t, j = JString t /\ replaced s t.
Definition an_int (v : Z) (j : json) : Prop := exists t, j = JNumber t /\ read_dec t = Some v.
Definition an_array {A} (p : A -> json -> Prop) (l : list A) (j : json) : Prop := exists js, j = JArray js /\ Forall2 p l js.
(** An object with these members, in this order; nothing else. *)
Definition members (l : list (bytes * (json -> Prop))) (j : json) : Prop :=
  exists js, j = JObject js /\ Forall2 (fun m e => fst e = fst m /\ snd m (snd e)) l js.
(** An object with a member for each entry of a map; the keys are those of the map, as [replaced],
    in increasing order. *)
Definition a_map {A} (p : A -> json -> Prop) (m : list (bytes * A)) (j : json) : Prop :=
  exists m' js, m' ≡ₚ m /\ StronglySorted (fun x y => bytes_lt (fst x) (fst y)) m' /\ j = JObject js /\
    Forall2 (fun e e' => replaced (fst e) (fst e') /\ p (snd e) (snd e')) m' js.

(** ** The documents *)
Section documents.
  Context (table : Z -> bool) (short_del : bool) (other : list arg -> bytes).
  (** A string holding a Go literal of [text]. *)
  Definition a_literal (text : bytes) (j : json) : Prop := exists t, j = JString t /\ go_unquote t = Some text.
  Definition an_annotation (a : bytes * bytes) (j : json) : Prop := exists n v, j = JArray [n; v] /\ a_string (fst a) n /\ a_string (snd a) v.
  Definition a_bool (b : bool) (j : json) : Prop := j = JBool b.
  Definition span_start (s : jspan) : list (bytes * (json -> Prop)) :=
    [(B "id", an_int (js_id s))] ++ match js_parent s with Some p => [(B "parent_id", an_int p)] | None => [] end ++
    [(B "func", members [(B "package", a_string (js_package s)); (B "name", a_string (js_name s))]);
     (B "trace", members [(B "id", an_int (js_trace s))]);
     (B "start", an_int (js_start s))].
  Definition span_end (s : jspan) : list (bytes * (json -> Prop)) :=
    [(B "args", an_array a_literal (span_args table short_del other (js_args s))); (B "annotations", an_array an_annotation (js_annotations s))].
  Definition span_object (e : jspan * Z) : json -> Prop :=
    members (span_start (fst e) ++ [(B "elapsed", an_int (snd e)); (B "orphaned", a_bool (js_orphaned (fst e)))] ++ span_end (fst e)).
  (** A finished span: the span, its end, its error and whether it panicked. *)
  Definition finished_object (e : jspan * Z * option bytes * bool) : json -> Prop :=
    let '(s, finish, err, panicked) := e in
    members (span_start s ++ [(B "finish", an_int finish); (B "orphaned", a_bool (js_orphaned s)); (B "err", a_string (default [] err)); (B "panicked", a_bool panicked)] ++ span_end s).
End documents.
Definition times_object (d : jdist) (qs : list (bytes * Z)) : json -> Prop :=
  members [(B "average", an_int (jd_average d)); (B "reservoir_average", an_int (jd_reservoir d)); (B "full_average", an_int (jd_average d));
           (B "max", an_int (jd_high d)); (B "min", an_int (jd_low d)); (B "recent", an_int (jd_recent d)); (B "quantiles", a_map an_int qs)].
(** The parents that are functions; null if there are none. *)
Definition parent_list (l : list (option Z)) (j : json) : Prop :=
  match omap id l with [] => j = JNull | ids => an_array an_int ids j end.
Definition func_object (f : jfunc) (success failure : list (bytes * Z)) : json -> Prop :=
  members [(B "id", an_int (jf_id f)); (B "parent_ids", parent_list (jf_parents f)); (B "package", a_string (jf_package f)); (B "name", a_string (jf_name f));
           (B "current", an_int (jf_current f)); (B "highwater", an_int (jf_highwater f)); (B "success", an_int (jf_success f)); (B "panics", an_int (jf_panics f));
           (B "entry", a_bool (bool_decide (None ∈ jf_parents f))); (B "errors", a_map an_int (jf_errors f));
           (B "success_times", times_object (jf_stimes f) success); (B "failure_times", times_object (jf_ftimes f) failure)].
(** [m] is the map after assigning the pairs [l] one after the other. *)
Definition assigned (l m : list (bytes * Z)) : Prop :=
  NoDup (map fst m) /\ forall k v, (k, v) ∈ m <-> exists l1 l2, l = l1 ++ (k, v) :: l2 /\ k ∉ map fst l2.

(** ** Any value *)
Inductive stands : gov -> json -> Prop :=
| stands_nil : stands GNil JNull
| stands_bool b : stands (GBool b) (JBool b)
| stands_int v t : read_dec t = Some v -> stands (GInt v) (JNumber t)
| stands_float t : stands (GFloat (Some t)) (JNumber t)
| stands_string s t : replaced s t -> stands (GString s) (JString t)
| stands_slice l js : Forall2 stands l js -> stands (GSlice l) (JArray js)
| stands_struct l js : Forall2 (fun f e => replaced (fst f) (fst e) /\ stands (snd f) (snd e)) l js -> stands (GStruct l) (JObject js)
| stands_map l l' js : l' ≡ₚ l -> StronglySorted (fun x y => bytes_lt (fst x) (fst y)) l' ->
    Forall2 (fun f e => replaced (fst f) (fst e) /\ stands (snd f) (snd e)) l' js -> stands (GMap l) (JObject js).
(** What Go can hand to Marshal here: 64-bit integers, finite floats as JSON writes them, maps
    with distinct keys. *)
Definition int64 (v : Z) : Prop := - 2 ^ 63 <= v < 2 ^ 63.
Inductive proper : gov -> Prop :=
| proper_nil : proper GNil
| proper_bool b : proper (GBool b)
| proper_int v : int64 v -> proper (GInt v)
| proper_float t : number_text t = true -> proper (GFloat (Some t))
| proper_string s : proper (GString s)
| proper_slice l : Forall proper l -> proper (GSlice l)
| proper_struct l : Forall (fun f => proper (snd f)) l -> proper (GStruct l)
| proper_map l : NoDup (map fst l) -> Forall (fun f => proper (snd f)) l -> proper (GMap l).
Definition proper_span (s : jspan) : Prop :=
  int64 (js_id s) /\ (forall p, js_parent s = Some p -> int64 p) /\ int64 (js_trace s) /\ int64 (js_start s).
Definition proper_dist (d : jdist) : Prop :=
  int64 (jd_average d) /\ int64 (jd_reservoir d) /\ int64 (jd_high d) /\ int64 (jd_low d) /\ int64 (jd_recent d) /\ Forall (fun e => int64 (snd e)) (jd_query d).
Definition proper_func (f : jfunc) : Prop :=
  int64 (jf_id f) /\ (forall p, Some p ∈ jf_parents f -> int64 p) /\ int64 (jf_current f) /\ int64 (jf_highwater f) /\ int64 (jf_success f) /\ int64 (jf_panics f) /\
  NoDup (map fst (jf_errors f)) /\ Forall (fun e => int64 (snd e)) (jf_errors f) /\ proper_dist (jf_stimes f) /\ proper_dist (jf_ftimes f).
