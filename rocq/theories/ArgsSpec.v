(** Vocabulary for C78: reading Go string literals and argument lists. *)
From Verif Require Import Base PresentModel SvgModel SvgSpec ArgsModel.
Local Open Scope Z_scope.

Definition hex_value (c : ascii) : option Z :=
  let n := byte c in
  if (48 <=? n) && (n <=? 57) then Some (n - 48) else if (97 <=? n) && (n <=? 102) then Some (n - 87)
  else if (65 <=? n) && (n <=? 70) then Some (n - 55) else None.
Fixpoint hex_number (acc : Z) (s : bytes) : option Z :=
  match s with [] => Some acc | c :: s' => match hex_value c with Some d => hex_number (16 * acc + d) s' | None => None end end.
(** Unicode scalar values. *)
Definition scalarb (r : Z) : bool := (0 <=? r) && (r <? 55296) || (57344 <=? r) && (r <? 1114112).
(** The Go specification, "String literals" and "Rune literals": the value of an interpreted
    string literal whose opening quote has been read, and what follows the literal.  (Octal
    escapes are not read.) *)
Definition simple_escape (c : ascii) : option Z :=
  let n := byte c in
  if n =? 97 then Some 7 else if n =? 98 then Some 8 else if n =? 102 then Some 12 else if n =? 110 then Some 10
  else if n =? 114 then Some 13 else if n =? 116 then Some 9 else if n =? 118 then Some 11 else if n =? 92 then Some 92
  else if n =? 34 then Some 34 else None.
Definition add_chars (x : bytes) (r : option (bytes * bytes)) : option (bytes * bytes) :=
  match r with Some (s, rest) => Some (x ++ s, rest) | None => None end.
Definition rune_bytes (ds : bytes) : option bytes :=
  match hex_number 0 ds with Some r => if scalarb r then Some (utf8 r) else None | None => None end.
Fixpoint go_literal (s : bytes) : option (bytes * bytes) :=
  match s with
  | [] => None
  | c :: s1 =>
      if byte c =? 34 then Some ([], s1)
      else if byte c =? 10 then None
      else if byte c =? 92 then
        match s1 with
        | [] => None
        | e :: s2 =>
            match simple_escape e with
            | Some v => add_chars [ascii_of_N (Z.to_N v)] (go_literal s2)
            | None =>
                match s2 with
                | a :: b :: s3 =>
                    if byte e =? 120 then
                      match hex_number 0 [a; b] with Some v => add_chars [ascii_of_N (Z.to_N v)] (go_literal s3) | None => None end
                    else
                      match s3 with
                      | c :: d :: s4 =>
                          if byte e =? 117 then match rune_bytes [a; b; c; d] with Some x => add_chars x (go_literal s4) | None => None end
                          else
                            match s4 with
                            | f :: g :: h :: i :: s5 =>
                                if byte e =? 85 then match rune_bytes [a; b; c; d; f; g; h; i] with Some x => add_chars x (go_literal s5) | None => None end
                                else None
                            | _ => None
                            end
                      | _ => None
                      end
                | _ => None
                end
            end
        end
      else add_chars [c] (go_literal s1)
  end.
(** The value of a text that is one Go string literal. *)
Definition go_unquote (s : bytes) : option bytes :=
  match s with c :: s' => if byte c =? 34 then match go_literal s' with Some (v, []) => Some v | _ => None end else None | [] => None end.

(** Text for a line of a report: printable runes only. *)
Definition printable (table : Z -> bool) (s : bytes) : Prop :=
  exists rs, s = concat (map utf8 rs) /\ Forall (fun r => scalarb r = true /\ is_print table r = true) rs.

(** ** Argument lists of strings, byte slices, times and slices of these *)
Definition time_text (t : bytes) : Prop := Forall (fun c => byte c <> 41) t. (* no parenthesis *)
Definition plain_item (a : arg) : Prop := match a with AString _ | ABytes _ => True | ATime t => time_text t | _ => False end.
Definition plain_arg (a : arg) : Prop := match a with AList l => Forall plain_item l | _ => plain_item a end.
(** Arguments whose text, where fmt or time writes it, is printable. *)
Definition shown_item (table : Z -> bool) (a : arg) : Prop :=
  match a with AString _ | ABytes _ => True | ATime t | AOther t => printable table t | AList _ => False end.
Definition shown_arg (table : Z -> bool) (a : arg) : Prop := match a with AList l => Forall (shown_item table) l | _ => shown_item table a end.
(** [strip p s]: what follows the prefix [p] of [s]. *)
Fixpoint strip (p s : bytes) : option bytes :=
  match p, s with
  | [], _ => Some s
  | a :: p', c :: s' => if Ascii.eqb a c then strip p' s' else None
  | _ :: _, [] => None
  end.
Fixpoint until_paren (s : bytes) : option (bytes * bytes) :=
  match s with [] => None | c :: s' => if byte c =? 41 then Some ([], s') else add_chars [c] (until_paren s') end.
Fixpoint hex_bytes (s : bytes) : option bytes :=
  match s with
  | [] => Some []
  | a :: b :: s' => match hex_number 0 [a; b], hex_bytes s' with Some v, Some l => Some (ascii_of_N (Z.to_N v) :: l) | _, _ => None end
  | _ => None
  end.
Definition read_item (s : bytes) : option (arg * bytes) :=
  match strip [quote] s with
  | Some s' => match go_literal s' with Some (v, rest) => Some (AString v, rest) | None => None end
  | None =>
      match strip (B "[]uint8(0x") s with
      | Some s' => match until_paren s' with Some (h, rest) => match hex_bytes h with Some v => Some (ABytes v, rest) | None => None end | None => None end
      | None =>
          match strip (B "time.Time(") s with
          | Some s' => match until_paren s' with Some (t, rest) => Some (ATime t, rest) | None => None end
          | None => None
          end
      end
  end.
(** Things read by [read], separated by comma and space, as long as there are separators. *)
Fixpoint read_list {A} (read : bytes -> option (A * bytes)) (fuel : nat) (s : bytes) : option (list A * bytes) :=
  match fuel with
  | O => None
  | S fuel' =>
      match read s with
      | Some (a, rest) =>
          match strip (B ", ") rest with
          | Some rest' => match read_list read fuel' rest' with Some (l, r) => Some (a :: l, r) | None => None end
          | None => Some ([a], rest)
          end
      | None => None
      end
  end.
Definition read_arg (s : bytes) : option (arg * bytes) :=
  match strip (B "{") s with
  | Some s' =>
      match strip (B "}") s' with
      | Some rest => Some (AList [], rest)
      | None =>
          match read_list read_item (S (length s')) s' with
          | Some (l, rest) => match strip (B "}") rest with Some rest' => Some (AList l, rest') | None => None end
          | None => None
          end
      end
  | None => read_item s
  end.
(** The arguments in the text SpansText shows between the parentheses. *)
Definition read_args (s : bytes) : option (list arg) :=
  match s with
  | [] => Some []
  | _ => match read_list read_arg (S (length s)) s with Some (l, []) => Some l | _ => None end
  end.
