(** span.go 105-150: Args and interfacesToString. *)
From Verif Require Import Base PresentModel SvgModel.
Local Open Scope Z_scope.

(** ** Hexadecimal digits, lower case *)
Definition hexd (d : Z) : ascii := ascii_of_N (Z.to_N (if d <? 10 then 48 + d else 87 + d)).
(** The last [n] digits of [v]. *)
Fixpoint hexn (n : nat) (v : Z) : bytes :=
  match n with O => [] | S n' => hexn n' (v / 16) ++ [hexd (v mod 16)] end.
(** encoding/hex.EncodeToString *)
Definition hex_string (s : bytes) : bytes := concat (map (fun c => hexn 2 (byte c)) s).

(** ** strconv.Quote *)
Section quote.
  (** [table]: which runes from U+0080 on strconv.IsPrint accepts (a table of the Go release);
      [short_del]: whether U+007F is written \x7f (Go 1.19 and later) or \u007f. *)
  Context (table : Z -> bool) (short_del : bool).
  Definition is_print (r : Z) : bool := if r <? 128 then (32 <=? r) && (r <? 127) else table r.
  (** appendEscapedRune; [raw]: the bytes of the rune. *)
  Definition escape_quoted (r : Z) (raw : bytes) : bytes :=
    if (r =? 34) || (r =? 92) then [backslash] ++ raw
    else if is_print r then raw
    else if r =? 7 then B "\a" else if r =? 8 then B "\b" else if r =? 12 then B "\f" else if r =? 10 then B "\n"
    else if r =? 13 then B "\r" else if r =? 9 then B "\t" else if r =? 11 then B "\v"
    else if (r <? 32) || ((r =? 127) && short_del) then B "\x" ++ hexn 2 r
    else if r <? 65536 then B "\u" ++ hexn 4 r
    else B "\U" ++ hexn 8 r.
  (** appendQuotedWith *)
  Fixpoint quote_go (fuel : nat) (s : bytes) : bytes :=
    match fuel, s with
    | S fuel', c :: _ =>
        let (r, width) := decode_rune s in
        (if (width =? 1)%nat && (r =? rune_error) then B "\x" ++ hexn 2 (byte c) else escape_quoted r (take width s)) ++ quote_go fuel' (drop width s)
    | _, _ => []
    end.
  Definition go_quote (s : bytes) : bytes := [quote] ++ quote_go (length s) s ++ [quote].

  (** ** Arguments of a task, by their dynamic type.  [ATime]: what Format gives for it;
      [AOther]: what %#v gives. *)
  Inductive arg := AString (s : bytes) | ABytes (s : bytes) | ATime (rfc3339 : bytes) | AList (l : list arg) | AOther (text : bytes).
  (** span.go 133-146.  [other]: the text of %#v for a list inside of a list. *)
  Definition item_text (other : list arg -> bytes) (a : arg) : bytes :=
    match a with
    | AString s => go_quote s
    | ABytes s => B "[]uint8(0x" ++ hex_string s ++ B ")"
    | ATime t => B "time.Time(" ++ t ++ B ")"
    | AList l => other l
    | AOther t => t
    end.
  (** span.go 126-150. *)
  Definition interfaces_to_string (other : list arg -> bytes) (l : list arg) : bytes :=
    B "{" ++ join (B ", ") (map (item_text other) l) ++ B "}".
  (** span.go 107-124. *)
  Definition span_args (other : list arg -> bytes) (args : list arg) : list bytes :=
    map (fun a => match a with AList l => interfaces_to_string other l | _ => item_text other a end) args.
End quote.
