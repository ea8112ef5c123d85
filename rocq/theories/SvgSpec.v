(** Vocabulary for C73-C75: a small XML reader, UTF-8, JavaScript quoting. *)
From Verif Require Import Base PresentModel LayoutModel SvgModel.
Local Open Scope Z_scope.

(** ** UTF-8 *)
Definition utf8 (r : Z) : bytes :=
  let b n := ascii_of_N (Z.to_N n) in
  if r <? 128 then [b r]
  else if r <? 2048 then [b (192 + r / 64); b (128 + r mod 64)]
  else if r <? 65536 then [b (224 + r / 4096); b (128 + r / 64 mod 64); b (128 + r mod 64)]
  else [b (240 + r / 262144); b (128 + r / 4096 mod 64); b (128 + r / 64 mod 64); b (128 + r mod 64)].
(** The code points XML 1.0 allows. *)
Definition xml_code (r : Z) : Prop :=
  r = 9 \/ r = 10 \/ r = 13 \/ 32 <= r <= 55295 \/ 57344 <= r <= 65533 \/ 65536 <= r <= 1114111.
(** [s] is UTF-8 text that XML can carry. *)
Definition xml_text (s : bytes) : Prop := exists rs, Forall xml_code rs /\ s = concat (map utf8 rs).
(** [t] shows [s]: [s] with what is not UTF-8 or not allowed in XML replaced by U+FFFD. *)
Inductive shows : bytes -> bytes -> Prop :=
| shows_nil : shows [] []
| shows_rune r s t : xml_code r -> shows s t -> shows (utf8 r ++ s) (utf8 r ++ t)
| shows_bad x s t : x <> [] -> (length x <= 3)%nat -> (forall r s', xml_code r -> x ++ s <> utf8 r ++ s') ->
    shows s t -> shows (x ++ s) (utf8 65533 ++ t).

(** ** Decimal numbers and durations *)
Definition digit_value (c : ascii) : option Z := let n := Z.of_N (N_of_ascii c) - 48 in if (0 <=? n) && (n <=? 9) then Some n else None.
Fixpoint digits_value (acc : Z) (s : bytes) : option Z :=
  match s with
  | [] => Some acc
  | c :: s' => match digit_value c with Some d => digits_value (10 * acc + d) s' | None => None end
  end.
Definition read_dec (s : bytes) : option Z :=
  match s with
  | [] => None
  | c :: s' =>
      if Ascii.eqb c "-" then match s' with [] => None | _ => option_map Z.opp (digits_value 0 s') end else digits_value 0 s
  end.
(** A duration as people read it, in nanoseconds: 1h2m3.5s; [s]: what is left, [n]/[k]: the
    number so far and, after a decimal point, the power of ten of its last digit; [sum]: of
    the parts read. *)
Definition unit_value (u : bytes) : option Z :=
  if beqb u (B "h") then Some 3600000000000 else if beqb u (B "m") then Some 60000000000 else if beqb u (B "s") then Some 1000000000
  else if beqb u (B "ms") then Some 1000000 else if beqb u (utf8 181 ++ B "s") then Some 1000 else if beqb u (B "ns") then Some 1 else None.
Definition part_value (n k : Z) (u : bytes) : option Z :=
  match unit_value u with Some m => if n * m mod k =? 0 then Some (n * m / k) else None | None => None end.
Fixpoint duration_parts (sum n : Z) (k : option Z) (unit : bytes) (s : bytes) : option Z :=
  match s with
  | [] => option_map (Z.add sum) (part_value n (default 1 k) unit)
  | c :: s' =>
      match digit_value c, unit with
      | Some d, [] => duration_parts sum (10 * n + d) (option_map (Z.mul 10) k) [] s'
      | Some d, _ =>
          match part_value n (default 1 k) unit with
          | Some v => duration_parts (sum + v) d None [] s'
          | None => None
          end
      | None, [] => if Ascii.eqb c "." then match k with None => duration_parts sum n (Some 1) [] s' | Some _ => None end else duration_parts sum n k [c] s'
      | None, _ => duration_parts sum n k (unit ++ [c]) s'
      end
  end.
Definition read_duration (s : bytes) : option Z :=
  match s with
  | c :: s' => if Ascii.eqb c "-" then option_map Z.opp (duration_parts 0 0 None [] s') else duration_parts 0 0 None [] s
  | [] => None
  end.

(** ** XML *)
Inductive xtoken := XOpen (name : bytes) (attrs : list (bytes * bytes)) | XClose (name : bytes) | XText (t : bytes).
Inductive xmode :=
| MStart | MText | MLt (start : bool) | MPi (start : bool) | MPiBody | MPiEnd | MBang | MDoctype | MDoctypeQ
| MCdata | MCdata1 | MCdata2 | MOpen | MTag | MName | MEq | MValue | MAfter | MSlash | MClose
| MEnt (value : bool).
(** [x_cur]: the word being read, [x_ent]: the reference being read, both backwards;
    [x_stack]: the open elements; [x_out]: the tokens read, last first. *)
Record xstate := X { x_mode : xmode; x_cur : bytes; x_ent : bytes; x_tag : bytes; x_attr : bytes; x_attrs : list (bytes * bytes); x_stack : list bytes; x_out : list xtoken }.
Definition is (c : ascii) (n : N) : bool := (N_of_ascii c =? n)%N.
Definition xspace (c : ascii) : bool := is c 32 || is c 10 || is c 13 || is c 9.
Definition xname (c : ascii) : bool :=
  let n := N_of_ascii c in
  ((65 <=? n) && (n <=? 90) || (97 <=? n) && (n <=? 122) || (48 <=? n) && (n <=? 57) || (n =? 45) || (n =? 46) || (n =? 58) || (n =? 95) || (128 <=? n))%N.
Definition xstart (c : ascii) : bool :=
  let n := N_of_ascii c in ((65 <=? n) && (n <=? 90) || (97 <=? n) && (n <=? 122) || (n =? 58) || (n =? 95) || (128 <=? n))%N.
(** Text of white space only is left out, other text has to be inside of an element. *)
Definition flush (cur : bytes) (stk : list bytes) (out : list xtoken) : option (list xtoken) :=
  if forallb xspace cur then Some out else match stk with [] => None | _ => Some (XText cur :: out) end.
(** References: the five predefined entities and the character numbers XML writers use
    instead; backwards, as read. *)
Definition reference (e : bytes) : option ascii :=
  let is s := beqb e (rev s) in
  if is (B "lt") then Some (ascii_of_N 60) else if is (B "gt") then Some (ascii_of_N 62) else if is (B "amp") then Some (ascii_of_N 38)
  else if is (B "quot") || is (B "#34") then Some (ascii_of_N 34) else if is (B "apos") || is (B "#39") then Some (ascii_of_N 39)
  else if is (B "#x9") then Some (ascii_of_N 9) else if is (B "#xA") then Some (ascii_of_N 10) else if is (B "#xD") then Some (ascii_of_N 13)
  else None.
Definition xstep (st : option xstate) (c : ascii) : option xstate :=
  match st with
  | None => None
  | Some (X m cur ent tag at_ ats stk out) =>
      match m with
      | MStart => if is c 60 then Some (X (MLt true) [] ent tag at_ ats stk out) else Some (X MText [c] ent tag at_ ats stk out)
      | MText =>
          if is c 60 then match flush cur stk out with Some out' => Some (X (MLt false) [] ent tag at_ ats stk out') | None => None end
          else if is c 38 then Some (X (MEnt false) cur [] tag at_ ats stk out)
          else if is c 62 then None
          else Some (X MText (c :: cur) ent tag at_ ats stk out)
      | MLt start =>
          if is c 47 then Some (X MClose [] ent tag at_ ats stk out)
          else if is c 63 then Some (X (MPi start) [] ent tag at_ ats stk out)
          else if is c 33 then Some (X MBang [] ent tag at_ ats stk out)
          else if xstart c then
            match stk, out with
            | [], _ :: _ => None  (* a second root *)
            | _, _ => Some (X MOpen [c] ent tag at_ [] stk out)
            end
          else None
      | MPi start =>              (* the XML declaration comes first or not at all *)
          if xname c then Some (X (MPi start) (c :: cur) ent tag at_ ats stk out)
          else if beqb cur (rev (B "xml")) && negb start then None
          else if is c 63 then Some (X MPiEnd [] ent tag at_ ats stk out) else Some (X MPiBody [] ent tag at_ ats stk out)
      | MPiBody => if is c 63 then Some (X MPiEnd [] ent tag at_ ats stk out) else Some (X MPiBody [] ent tag at_ ats stk out)
      | MPiEnd => if is c 62 then Some (X MText [] ent tag at_ ats stk out) else if is c 63 then Some (X MPiEnd [] ent tag at_ ats stk out) else Some (X MPiBody [] ent tag at_ ats stk out)
      | MBang =>
          if beqb (c :: cur) (rev (B "DOCTYPE")) then Some (X MDoctype [] ent tag at_ ats stk out)
          else if beqb (c :: cur) (rev (B "[CDATA[")) then Some (X MCdata [] ent tag at_ ats stk out)
          else if (length cur <? 6)%nat then Some (X MBang (c :: cur) ent tag at_ ats stk out) else None
      | MDoctype => if is c 62 then Some (X MText [] ent tag at_ ats stk out) else if is c 34 then Some (X MDoctypeQ [] ent tag at_ ats stk out) else Some (X MDoctype [] ent tag at_ ats stk out)
      | MDoctypeQ => if is c 34 then Some (X MDoctype [] ent tag at_ ats stk out) else Some (X MDoctypeQ [] ent tag at_ ats stk out)
      | MCdata => if is c 93 then Some (X MCdata1 cur ent tag at_ ats stk out) else Some (X MCdata (c :: cur) ent tag at_ ats stk out)
      | MCdata1 => if is c 93 then Some (X MCdata2 cur ent tag at_ ats stk out) else Some (X MCdata (c :: "]"%char :: cur) ent tag at_ ats stk out)
      | MCdata2 =>
          if is c 62 then match stk with [] => None | _ => Some (X MText [] ent tag at_ ats stk (XText cur :: out)) end
          else if is c 93 then Some (X MCdata2 ("]"%char :: cur) ent tag at_ ats stk out)
          else Some (X MCdata (c :: "]"%char :: "]"%char :: cur) ent tag at_ ats stk out)
      | MOpen =>
          if xname c then Some (X MOpen (c :: cur) ent tag at_ ats stk out)
          else if xspace c then Some (X MTag [] ent cur at_ [] stk out)
          else if is c 62 then Some (X MText [] ent cur at_ [] (cur :: stk) (XOpen cur [] :: out))
          else if is c 47 then Some (X MSlash [] ent cur at_ [] stk out) else None
      | MTag =>
          if xspace c then Some (X MTag [] ent tag at_ ats stk out)
          else if is c 62 then Some (X MText [] ent tag at_ [] (tag :: stk) (XOpen tag (rev ats) :: out))
          else if is c 47 then Some (X MSlash [] ent tag at_ ats stk out)
          else if xstart c then Some (X MName [c] ent tag at_ ats stk out) else None
      | MName =>
          if xname c then Some (X MName (c :: cur) ent tag at_ ats stk out)
          else if is c 61 && negb (existsb (fun a => beqb (fst a) cur) ats) then Some (X MEq [] ent tag cur ats stk out) else None
      | MEq => if is c 34 then Some (X MValue [] ent tag at_ ats stk out) else None
      | MValue =>
          if is c 34 then Some (X MAfter [] ent tag [] ((at_, cur) :: ats) stk out)
          else if is c 38 then Some (X (MEnt true) cur [] tag at_ ats stk out)
          else if is c 60 then None
          else Some (X MValue ((if xspace c then " "%char else c) :: cur) ent tag at_ ats stk out)
      | MAfter =>
          if xspace c then Some (X MTag [] ent tag at_ ats stk out)
          else if is c 62 then Some (X MText [] ent tag at_ [] (tag :: stk) (XOpen tag (rev ats) :: out))
          else if is c 47 then Some (X MSlash [] ent tag at_ ats stk out) else None
      | MSlash => if is c 62 then Some (X MText [] ent tag at_ [] stk (XClose tag :: XOpen tag (rev ats) :: out)) else None
      | MClose =>
          if xname c then Some (X MClose (c :: cur) ent tag at_ ats stk out)
          else if is c 62 then
            match stk with
            | top :: stk' => if beqb top cur then Some (X MText [] ent tag at_ ats stk' (XClose cur :: out)) else None
            | [] => None
            end
          else None
      | MEnt value =>
          if is c 59 then
            match reference ent with
            | Some r => Some (X (if value then MValue else MText) (r :: cur) [] tag at_ ats stk out)
            | None => None
            end
          else Some (X (MEnt value) cur (c :: ent) tag at_ ats stk out)
      end
  end.
Definition xrun (s : bytes) (st : option xstate) : option xstate := fold_left xstep s st.
Definition forwards (t : xtoken) : xtoken :=
  match t with
  | XOpen n ats => XOpen (rev n) (map (fun a => (rev (fst a), rev (snd a))) ats)
  | XClose n => XClose (rev n)
  | XText t => XText (rev t)
  end.
(** The tokens of a document, or [None] if it is not well-formed: one root element, every
    element closed in the right order, no attribute given twice, nothing but white space and a
    document type outside of the root.  (Comments are not read.) *)
Definition xml_read (s : bytes) : option (list xtoken) :=
  match xrun s (Some (X MStart [] [] [] [] [] [] [])) with
  | Some (X MText cur _ _ _ _ [] (t :: out)) => if forallb xspace cur then Some (rev (map forwards (t :: out))) else None
  | _ => None
  end.

(** ** What the picture shows for one span *)
Definition tooltip (id parent : Z) (name args duration started : bytes) : bytes :=
  B "mouseover('" ++ dec id ++ B "', '" ++ dec parent ++ B "', '" ++ name ++ B "(" ++ args ++ B ") Duration:" ++ duration ++ B " Started:" ++ started ++ B "');".
(** The elements of one span; [name] and [args]: as a reader of the document sees them. *)
Definition span_tokens (v : sval) (name args : bytes) : list xtoken :=
  let handler f := B f ++ B "('" ++ dec (sv_id v) ++ B "', '" ++ dec (sv_parent v) ++ B "');" in
  let box := [(B "x", dec (sv_left v)); (B "y", dec (sv_top v)); (B "width", dec (sv_width v)); (B "height", dec (sv_height v))] in
  [ XOpen (B "g") [(B "id", B "id-" ++ dec (sv_id v)); (B "class", B "func parent-" ++ dec (sv_parent v));
                   (B "onmouseover", tooltip (sv_id v) (sv_parent v) name args (sv_duration v) (sv_started v));
                   (B "onmouseout", handler "mouseout"%string); (B "onclick", handler "mouseclick"%string)];
    XOpen (B "clipPath") [(B "id", B "clip-" ++ dec (sv_id v))]; XOpen (B "rect") box; XClose (B "rect"); XClose (B "clipPath");
    XOpen (B "rect") ((B "id", B "rect-" ++ dec (sv_id v)) :: box ++ [(B "fill", sv_color v)]); XClose (B "rect");
    XOpen (B "text") [(B "id", B "text-" ++ dec (sv_id v)); (B "x", dec (sv_left v)); (B "y", dec (sv_text_top v)); (B "fill", B "rgb(0,0,0)");
                      (B "font-size", dec (sv_font v)); (B "clip-path", B "url(#clip-" ++ dec (sv_id v) ++ B ")")];
    XText (name ++ B "(" ++ args ++ B ") (" ++ sv_duration v ++ B ")"); XClose (B "text");
    XOpen (B "g") [(B "class", B "parent")];
    XOpen (B "line") [(B "stroke-width", B "2"); (B "x1", dec (sv_left v)); (B "x2", dec (sv_parent_left v)); (B "y1", dec (sv_mid v)); (B "y2", dec (sv_parent_mid v))];
    XClose (B "line"); XClose (B "g"); XClose (B "g") ].

(** The rest of the picture. *)
Definition svg_root (height : Z) : xtoken :=
  XOpen (B "svg") [(B "version", B "1.1"); (B "xmlns", B "http://www.w3.org/2000/svg"); (B "xmlns:xlink", B "http://www.w3.org/1999/xlink");
                   (B "viewBox", B "0 0 1200 " ++ dec height); (B "width", B "1200"); (B "height", dec height)].
Definition svg_tail : list xtoken :=
  [ XOpen (B "g") [(B "id", B "fixed"); (B "transform", B "translate(0 0)")];
    XOpen (B "rect") [(B "width", B "100%"); (B "height", B "30")]; XClose (B "rect");
    XOpen (B "text") [(B "id", B "tooltip"); (B "y", B "20"); (B "x", B "10"); (B "font-size", B "20"); (B "fill", B "white")]; XClose (B "text");
    XClose (B "g"); XClose (B "svg") ].
(** [doc] is an SVG file whose root contains, after [defs], the elements for [vs], each with
    its name and arguments. *)
Definition pictures (defs : list xtoken) (doc : bytes) (height : Z) (vs : list (sval * bytes * bytes)) : Prop :=
  xml_text doc /\
  xml_read doc = Some (svg_root height :: defs ++ concat (map (fun '(v, name, args) => span_tokens v name args) vs) ++ svg_tail).

(** ** Errors *)
(** [e] is the last of the errors that [e0] wraps with WrappedErr. *)
Inductive last_wrapped : terr -> terr -> Prop :=
| lw_none c u : last_wrapped (TErr c None u) (TErr c None u)
| lw_nil c u : last_wrapped (TErr c (Some None) u) (TErr c (Some None) u)
| lw_next c u e e' : last_wrapped e e' -> last_wrapped (TErr c (Some (Some e)) u) e'.
Definition is_canceled (e : terr) : bool := let (c, _, _) := e in c.
Definition red : bytes := B "rgb(255,0,0)".
Definition yellow : bytes := B "rgb(255,255,0)".
Definition orange : bytes := B "rgb(255,144,0)".
Definition blue : bytes := B "rgb(128,128,255)".

(** ** What the elements say about the spans *)
(** The name, the arguments and the times. *)
Definition describes (first : Z) (s : vspan) (e : sval * bytes * bytes) : Prop :=
  let '(v, name, args) := e in
  let int64 x := - 2 ^ 63 <= x < 2 ^ 63 in
  sv_id v = sp_id (vs_span s) /\ shows (vs_name s) name /\ shows (join (B " ") (vs_args s)) args /\
  (int64 (sp_finish (vs_span s) - sp_start (vs_span s)) -> read_duration (sv_duration v) = Some (sp_finish (vs_span s) - sp_start (vs_span s))) /\
  (int64 (sp_start (vs_span s) - first) -> read_duration (sv_started v) = Some (sp_start (vs_span s) - first)).
(** The colour. *)
Definition coloured (s : vspan) (v : sval) : Prop :=
  (vs_panicked s = true -> sv_color v = red) /\
  (vs_panicked s = false -> vs_err s = None -> sv_color v = blue) /\
  (vs_panicked s = false -> forall e e', vs_err s = Some e -> last_wrapped e e' -> sv_color v = if is_canceled e' then yellow else orange).
(** Bars in rows of 16, 15 high, with the text inside. *)
Definition placed (row : Z -> nat) (x_of : vspan -> option (Z * Z)) (s : vspan) (v : sval) : Prop :=
  x_of s = Some (sv_left v, sv_width v) /\ sv_top v = 16 * Z.of_nat (row (sp_id (vs_span s))) /\ sv_height v = 15 /\
  sv_top v < sv_text_top v - sv_font v < sv_text_top v /\ sv_text_top v < sv_top v + sv_height v.
(** The line from the left end of the bar of [s], halfway down, to that of its parent. *)
Definition joined (s : vspan) (v : sval) (ps : vspan) (pv : sval) : Prop :=
  sp_parent (vs_span s) = Some (sp_id (vs_span ps)) ->
  sv_parent v = sv_id pv /\ sv_parent_left v = sv_left pv /\ sv_parent_mid v = sv_top pv + 7.

(** ** JavaScript *)
(** After [s] a JavaScript reader is outside of every string literal.  [q]: the quote that
    opened the literal it is in. *)
Fixpoint js_scan (q : option ascii) (s : bytes) : bool :=
  match s with
  | [] => match q with None => true | Some _ => false end
  | c :: s' =>
      match q with
      | None => js_scan (if is c 39 || is c 34 then Some c else None) s'
      | Some d =>
          if is c 92 then match s' with [] => false | _ :: s'' => js_scan q s'' end
          else js_scan (if Ascii.eqb c d then None else q) s'
      end
  end.
Definition js_outside (s : bytes) : bool := js_scan None s.
(** The arguments of the only call in [s], f('...', '...', ...); with no escapes and no line
    ends inside the literals. *)
Fixpoint js_literals (inside : bool) (cur : bytes) (s : bytes) : option (list bytes) :=
  match s with
  | [] => None
  | c :: s' =>
      if inside then
        if is c 39 then
          match s' with
          | d :: e :: s'' =>
              if is d 41 && is e 59 && match s'' with [] => true | _ => false end then Some [rev cur]
              else if is d 44 && is e 32 then match js_literals false [] s'' with Some l => Some (rev cur :: l) | None => None end else None
          | _ => None
          end
        else if is c 92 || is c 10 || is c 13 then None else js_literals true (c :: cur) s'
      else if is c 39 then js_literals true [] s' else None
  end.
Definition js_call (f s : bytes) : option (list bytes) :=
  if beqb (take (length f) s) f then
    match drop (length f) s with c :: s' => if is c 40 then js_literals false [] s' else None | [] => None end
  else None.

Definition js_safe (s : bytes) : Prop := Forall (fun c => N_of_ascii c ∉ [10; 13; 39; 92]%N) s.
