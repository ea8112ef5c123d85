(** present/trace.go 36-139, 247-389: the SVG text of finished spans.  The templates are those
    of package text/template, which inserts values without any escaping. *)
From Verif Require Import Base PresentModel LayoutModel.
Local Open Scope Z_scope.

(** ** unicode/utf8.DecodeRune: the rune and how many bytes it takes; (U+FFFD, 1) for
    invalid bytes. *)
Definition rune_error : Z := 65533.
Definition between (lo hi : Z) (c : ascii) : bool := (lo <=? byte c) && (byte c <=? hi).
Definition low6 (c : ascii) : Z := byte c mod 64.
Definition decode_rune (s : bytes) : Z * nat :=
  match s with
  | [] => (rune_error, 0%nat)
  | a :: s1 =>
      if byte a <? 128 then (byte a, 1%nat)
      else if between 194 223 a then
        match s1 with
        | b :: _ => if between 128 191 b then (byte a mod 32 * 64 + low6 b, 2%nat) else (rune_error, 1%nat)
        | _ => (rune_error, 1%nat)
        end
      else if between 224 239 a then
        match s1 with
        | b :: c :: _ =>
            if between (if byte a =? 224 then 160 else 128) (if byte a =? 237 then 159 else 191) b && between 128 191 c
            then (byte a mod 16 * 4096 + low6 b * 64 + low6 c, 3%nat) else (rune_error, 1%nat)
        | _ => (rune_error, 1%nat)
        end
      else if between 240 244 a then
        match s1 with
        | b :: c :: d :: _ =>
            if between (if byte a =? 240 then 144 else 128) (if byte a =? 244 then 143 else 191) b && between 128 191 c && between 128 191 d
            then (byte a mod 8 * 262144 + low6 b * 4096 + low6 c * 64 + low6 d, 4%nat) else (rune_error, 1%nat)
        | _ => (rune_error, 1%nat)
        end
      else (rune_error, 1%nat)
  end.

(** ** encoding/xml.EscapeText *)
(** U+FFFD in UTF-8. *)
Definition replacement : bytes := [ascii_of_N 239; ascii_of_N 191; ascii_of_N 189].
(** isInCharacterRange *)
Definition xml_char (r : Z) : bool :=
  (r =? 9) || (r =? 10) || (r =? 13) || ((32 <=? r) && (r <=? 55295)) || ((57344 <=? r) && (r <=? 65533)) || ((65536 <=? r) && (r <=? 1114111)).
(** What is written for a rune; [None]: its bytes, unchanged. *)
Definition escape_rune (r : Z) (width : nat) : option bytes :=
  if r =? 34 then Some (B "&#34;")
  else if r =? 39 then Some (B "&#39;")
  else if r =? 38 then Some (B "&amp;")
  else if r =? 60 then Some (B "&lt;")
  else if r =? 62 then Some (B "&gt;")
  else if r =? 9 then Some (B "&#x9;")
  else if r =? 10 then Some (B "&#xA;")
  else if r =? 13 then Some (B "&#xD;")
  else if negb (xml_char r) || ((r =? rune_error) && (width =? 1)%nat) then Some replacement
  else None.
Fixpoint escape_go (fuel : nat) (s : bytes) : bytes :=
  match fuel, s with
  | S fuel', _ :: _ =>
      let (r, width) := decode_rune s in
      default (take width s) (escape_rune r width) ++ escape_go fuel' (drop width s)
  | _, _ => []
  end.
(** Every rune takes a byte at least. *)
Definition escape_text (s : bytes) : bytes := escape_go (length s) s.

(** ** time.Duration.String *)
(** fmtFrac: the fraction [v]/10^prec without trailing zeros, and the integer part. *)
Fixpoint frac_go (prec : nat) (v : Z) (print : bool) (acc : bytes) : bytes * Z :=
  match prec with
  | O => (if print then "."%char :: acc else acc, v)
  | S prec' =>
      let digit := v mod 10 in
      let print := print || negb (digit =? 0) in
      frac_go prec' (v / 10) print (if print then dec_digit digit :: acc else acc)
  end.
Definition duration_text (d : Z) : bytes :=
  let u := Z.abs d in
  let text :=
    if u <? 1000000000 then
      if u =? 0 then B "0s"
      else
        let '(prec, suffix) :=
          if u <? 1000 then (0%nat, B "ns")
          else if u <? 1000000 then (3%nat, [ascii_of_N 194; ascii_of_N 181] ++ B "s")
          else (6%nat, B "ms") in
        let (f, v) := frac_go prec u false [] in dec v ++ f ++ suffix
    else
      let (f, secs) := frac_go 9 u false [] in
      let mins := secs / 60 in
      let hours := mins / 60 in
      (if 0 <? mins then (if 0 <? hours then dec hours ++ B "h" else []) ++ dec (mins mod 60) ++ B "m" else []) ++ dec (secs mod 60) ++ f ++ B "s" in
  if d <? 0 then B "-" ++ text else text.

(** ** The templates *)
(** The values given to svgFunc (trace.go 298-318). *)
Record sval := SVal {
  sv_id : Z; sv_parent : Z; sv_name : bytes; sv_args : bytes; sv_duration : bytes; sv_started : bytes;
  sv_left : Z; sv_top : Z; sv_width : Z; sv_height : Z; sv_color : bytes; sv_text_top : Z; sv_font : Z;
  sv_parent_left : Z; sv_mid : Z; sv_parent_mid : Z
}.
(** svgHeader, 37-122 *)
Definition svg_header (height : Z) : bytes :=
  B "<?xml version=""1.0"" standalone=""no""?>
<!DOCTYPE svg PUBLIC ""-//W3C//DTD SVG 1.1//EN""
  ""http://www.w3.org/Graphics/SVG/1.1/DTD/svg11.dtd"">
<svg version=""1.1"" xmlns=""http://www.w3.org/2000/svg""
  xmlns:xlink=""http://www.w3.org/1999/xlink""
  viewBox=""0 0 " ++
  dec graph_width ++
  B " " ++
  dec height ++
  B """
  width=""" ++
  dec graph_width ++
  B """ height=""" ++
  dec height ++
  B """>

  <style type=""text/css"">
    .func .parent { visibility: hidden; }
    .func { stroke: black; stroke-width: 0.5; }

    .func.hover-asParent { stroke: green; stroke-width: 1; cursor: pointer; }
    .func.hover-selected { stroke: black; stroke-width: 1; cursor: pointer; }
    .func.hover-selected .parent { stroke: green; visibility: visible; }
    .func.hover-selected .parent line { marker-end: url(#head-green); }
    .func.hover-selected text { visibility: visible; }
    .func.hover-asChild { stroke: purple; stroke-width: 1; cursor: pointer; }
    .func.hover-asChild .parent { stroke: purple; visibility: visible; }
    .func.hover-asChild .parent line { marker-end: url(#head-purple); }

    .func.click-asParent { stroke: green; stroke-width: 1; cursor: pointer; }
    .func.click-selected { stroke: black; stroke-width: 1; cursor: pointer; }
    .func.click-selected .parent { stroke: green; visibility: visible; }
    .func.click-selected .parent line { marker-end: url(#head-green); }
    .func.click-selected text { visibility: visible; }
    .func.click-asChild { stroke: purple; stroke-width: 1; cursor: pointer; }
    .func.click-asChild .parent { stroke: purple; visibility: visible; }
    .func.click-asChild .parent line { marker-end: url(#head-purple); }
  </style>
  <script>
  //<![CDATA[
    function select(el, classname) {
      if (el) { el.classList.add(classname); }
    }
    function deselect(el, classname) {
      if (el) { el.classList.remove(classname); }
    }
    function toggle(el, classname) {
      if (el) { el.classList.toggle(classname) }
    }
    function mouseApply(fn, self, parent, prefix, tooltip) {
      fn(document.getElementById(""id-"" + parent), prefix + ""-asParent"");
      fn(document.getElementById(""id-"" + self), prefix + ""-selected"");
      var children = document.getElementsByClassName(""parent-"" + self);
      for (var i = 0; i < children.length; i++) {
        fn(children[i], prefix + ""-asChild"");
      }
      if (tooltip != null) {
         document.getElementById(""tooltip"").textContent = tooltip;
      }
    }
    function mouseover(self, parent, tooltip) {
      mouseApply(select, self, parent, ""hover"", tooltip);
    }
    function mouseout(self, parent) {
      mouseApply(deselect, self, parent, ""hover"", """");
    }
    function mouseclick(self, parent) {
      mouseApply(toggle, self, parent, ""click"", null);
    }

    function moveFixed(evt) {
      var fixed = document.getElementById(""fixed"");
      var tfm = fixed.transform.baseVal.getItem(0);
      tfm.setTranslate(0, document.documentElement.scrollTop);
    }

    window.onscroll = moveFixed;
    window.onload = moveFixed;
  //]]>
  </script>
  <defs>
    <marker id=""head-green"" orient=""auto"" markerWidth=""2"" markerHeight=""4""
        refX=""0.1"" refY=""2"" fill=""green"">
      <path d=""M0,0 V4 L2,2 Z""/>
    </marker>
    <marker id=""head-purple"" orient=""auto"" markerWidth=""2"" markerHeight=""4""
        refX=""0.1"" refY=""2"" fill=""purple"">
      <path d=""M0,0 V4 L2,2 Z""/>
    </marker>
  </defs>
 ".
(** svgFooter, 124-130 *)
Definition svg_footer : bytes :=
  B "
  <g id=""fixed"" transform=""translate(0 0)"">
    <rect width=""100%"" height=""30""/>
    <text id=""tooltip"" y=""20"" x=""10"" font-size=""20"" fill=""white""></text>
  </g>
</svg>
".
(** svgFunc, 132-138 *)
Definition svg_func (v : sval) : bytes :=
  B "
  <g id=""id-" ++
  dec (sv_id v) ++
  B """ class=""func parent-" ++
  dec (sv_parent v) ++
  B """ onmouseover=""mouseover('" ++
  dec (sv_id v) ++
  B "', '" ++
  dec (sv_parent v) ++
  B "', '" ++
  sv_name v ++
  B "(" ++
  sv_args v ++
  B ") Duration:" ++
  sv_duration v ++
  B " Started:" ++
  sv_started v ++
  B "');"" onmouseout=""mouseout('" ++
  dec (sv_id v) ++
  B "', '" ++
  dec (sv_parent v) ++
  B "');"" onclick=""mouseclick('" ++
  dec (sv_id v) ++
  B "', '" ++
  dec (sv_parent v) ++
  B "');"">
    <clipPath id=""clip-" ++
  dec (sv_id v) ++
  B """><rect x=""" ++
  dec (sv_left v) ++
  B """ y=""" ++
  dec (sv_top v) ++
  B """ width=""" ++
  dec (sv_width v) ++
  B """ height=""" ++
  dec (sv_height v) ++
  B """/></clipPath>
    <rect id=""rect-" ++
  dec (sv_id v) ++
  B """ x=""" ++
  dec (sv_left v) ++
  B """ y=""" ++
  dec (sv_top v) ++
  B """ width=""" ++
  dec (sv_width v) ++
  B """ height=""" ++
  dec (sv_height v) ++
  B """ fill=""" ++
  sv_color v ++
  B """/>
    <text id=""text-" ++
  dec (sv_id v) ++
  B """ x=""" ++
  dec (sv_left v) ++
  B """ y=""" ++
  dec (sv_text_top v) ++
  B """ fill=""rgb(0,0,0)"" font-size=""" ++
  dec (sv_font v) ++
  B """ clip-path=""url(#clip-" ++
  dec (sv_id v) ++
  B ")"">" ++
  sv_name v ++
  B "(" ++
  sv_args v ++
  B ") (" ++
  sv_duration v ++
  B ")</text>
    <g class=""parent""><line stroke-width=""2"" x1=""" ++
  dec (sv_left v) ++
  B """ x2=""" ++
  dec (sv_parent_left v) ++
  B """ y1=""" ++
  dec (sv_mid v) ++
  B """ y2=""" ++
  dec (sv_parent_mid v) ++
  B """ /></g>
  </g>".

(** ** The colour, 290-296, and unwrapError, 377-389 *)
(** An error: context.Canceled or another, with what its WrappedErr method returns, if it has
    one, and what its Unwrap method returns (which unwrapError does not look at). *)
Inductive terr := TErr (canceled : bool) (wrapped : option (option terr)) (unwraps : option terr).
Fixpoint unwrap_error (e : terr) : terr :=
  match e with
  | TErr _ (Some (Some e')) _ => unwrap_error e'
  | _ => e
  end.
Definition svg_color (panicked : bool) (e : option terr) : bytes :=
  if panicked then B "rgb(255,0,0)"
  else
    match e with
    | None => B "rgb(128,128,255)"
    | Some e => match unwrap_error e with TErr true _ _ => B "rgb(255,255,0)" | _ => B "rgb(255,144,0)" end
    end.

(** ** SpansToSVG, 247-371 *)
(** A finished span: what the layout reads, the full name of its Func, its Args, how it
    ended. *)
Record vspan := VSpan { vs_span : fspan; vs_name : bytes; vs_args : list bytes; vs_err : option terr; vs_panicked : bool }.
(** time.Time.Sub saturates. *)
Definition time_sub (t u : Z) : Z := Z.max (- 2 ^ 63) (Z.min (2 ^ 63 - 1) (t - u)).
(** byId, 250-252: the last span with the id *)
Definition by_id (spans : list vspan) (id : Z) : option vspan :=
  fold_left (fun r s => if sp_id (vs_span s) =? id then Some s else r) spans None.
(** 287-361: the values for one span; [spans]: in the order given, [sorted]: by start; [w]:
    the rows of the layout.  [None]: division by zero. *)
Definition span_values (zero_time : Z) (spans sorted : list vspan) (w : list (Z * nat)) (s : vspan) : option sval :=
  let mn := min_start zero_time (map vs_span spans) in
  let mx := max_end zero_time (map vs_span spans) in
  let row := row_of w (sp_id (vs_span s)) in
  let earliest := match sorted with f :: _ => sp_start (vs_span f) | [] => zero_time end in
  match bar_x mn mx (vs_span s) with
  | None => None
  | Some (x, width) =>
      let pars :=
        match sp_parent (vs_span s) with
        | None => Some (0, 0, 0)
        | Some p =>
            match by_id spans p with
            | None => Some (0, 0, 0)
            | Some ps =>
                match time_to_x mn mx (sp_start (vs_span ps)) with
                | None => None
                | Some px => Some (p, px, bar_height / 2 + Z.of_nat (row_of w p) * (bar_height + bar_sep))
                end
            end
        end in
      match pars with
      | None => None
      | Some (pid, pleft, pmid) =>
          Some (SVal (sp_id (vs_span s)) pid (escape_text (vs_name s)) (escape_text (join (B " ") (vs_args s)))
                  (duration_text (time_sub (sp_finish (vs_span s)) (sp_start (vs_span s))))
                  (duration_text (time_sub (sp_start (vs_span s)) earliest))
                  x (bar_top row) width bar_height (svg_color (vs_panicked s) (vs_err s))
                  ((Z.of_nat row + 1) * (bar_height + bar_sep) - bar_sep - 3) 9
                  pleft (Z.of_nat row * (bar_height + bar_sep) + bar_height / 2) pmid)
      end
  end.
Fixpoint all_some {A} (l : list (option A)) : option (list A) :=
  match l with
  | [] => Some []
  | None :: _ => None
  | Some x :: l' => match all_some l' with Some xs => Some (x :: xs) | None => None end
  end.
Definition svg_document (height : Z) (vs : list sval) : bytes := svg_header height ++ concat (map svg_func vs) ++ svg_footer.
(** [sorted]: what StartTimeSorter (collect.go 147-156; not stable) makes of the spans;
    [fuel], [order]: of the layout (LayoutModel.v). *)
Definition spans_to_svg (zero_time : Z) (fuel : nat) (order : list Z) (spans sorted : list vspan) : option bytes :=
  match layout zero_time fuel order (map vs_span sorted) with
  | None => None
  | Some (w, rows) =>
      match all_some (map (span_values zero_time spans sorted w) sorted) with
      | None => None
      | Some vs => Some (svg_document (graph_height rows) vs)
      end
  end.
