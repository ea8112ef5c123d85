(** C78: Span.Args. *)
From Verif Require Import Base PresentModel LayoutModel SvgModel SvgSpec SvgProofs ArgsModel ArgsSpec ArgsProofs.
Local Open Scope Z_scope.

(** strconv.Quote: a Go literal of exactly the bytes quoted, of printable runes only. *)
Theorem C78_quote : forall table short_del s,
  go_unquote (go_quote table short_del s) = Some s /\ printable table (go_quote table short_del s).
Proof. intros. split; [apply go_quote_unquote|apply quote_printable]. Qed.
Print Assumptions C78_quote.
(** It can be read from the middle of a text: the literal ends where Quote ended it. *)
Theorem C78_quote_ends : forall table short_del s rest,
  go_literal (drop 1 (go_quote table short_del s) ++ rest) = Some (s, rest).
Proof.
  intros. pose proof (quote_literal table short_del (length s) s rest (le_n _)) as H. unfold go_quote. change (drop 1 ([quote] ++ ?x)) with x.
  rewrite <- app_assoc. exact H.
Qed.
Print Assumptions C78_quote_ends.

(** One text for each argument, in order, that of the argument alone. *)
Theorem C78_each : forall table short_del other args,
  length (span_args table short_del other args) = length args /\
  forall i, span_args table short_del other args !! i = (fun a => join [] (span_args table short_del other [a])) <$> args !! i.
Proof. intros. unfold span_args. split; [apply map_length|]. intros i. rewrite list_lookup_fmap. destruct (args !! i); reflexivity. Qed.
Print Assumptions C78_each.

(** Strings, byte slices, times and slices of these can be read off the line of SpansText. *)
Theorem C78_read : forall table short_del other args,
  Forall plain_arg args ->
  read_args (join (B ", ") (span_args table short_del other args)) = Some args.
Proof. exact args_read. Qed.
Print Assumptions C78_read.
Theorem C78_injective : forall table short_del other args args',
  Forall plain_arg args -> Forall plain_arg args' ->
  join (B ", ") (span_args table short_del other args) = join (B ", ") (span_args table short_del other args') -> args = args'.
Proof. intros table short_del other a b Ha Hb E. apply Some_inj. rewrite <- (args_read table short_del other a Ha), <- (args_read table short_del other b Hb), E. reflexivity. Qed.
Print Assumptions C78_injective.

(** No argument can start a new line of the report. *)
Theorem C78_line : forall table short_del other args,
  Forall (shown_arg table) args ->
  let line := join (B ", ") (span_args table short_del other args) in
  printable table line /\ forall c, c ∈ line -> 32 <= byte c /\ byte c <> 127.
Proof. intros table short_del other args H line. pose proof (args_printable table short_del other args H) as P. split; [exact P|]. intros c. apply (printable_line table). exact P. Qed.
Print Assumptions C78_line.

(** Not so: other types.  fmt's %#v writes a string of a defined type as Quote does, and calls a
    GoString method, which may write newlines. *)
Theorem C78_types_refuted : exists args args' : list arg,
  args <> args' /\ forall table short_del other,
    span_args table short_del other args = span_args table short_del other args' /\ Forall (shown_arg table) args /\ Forall (shown_arg table) args'.
Proof.
  exists [AString (B "a")], [AOther (B """a""")]. split; [discriminate|]. intros table short_del other. split; [reflexivity|]. split.
  - apply Forall_cons_2; [exact I|apply Forall_nil_2].
  - apply Forall_cons_2; [|apply Forall_nil_2]. apply printable_ascii. reflexivity.
Qed.
Print Assumptions C78_types_refuted.
Theorem C78_line_refuted : exists args, forall table short_del other, newline ∈ join (B ", ") (span_args table short_del other args).
Proof. exists [AOther [newline]]. intros. left. Qed.
Print Assumptions C78_line_refuted.

(** ** Examples *)
Definition latin (r : Z) : bool := (161 <=? r) && (r <? 256) && negb (r =? 173).
Example C78_ex_quote :
  go_quote latin true (B "a""\" ++ utf8 10 ++ utf8 1 ++ utf8 127 ++ utf8 173 ++ utf8 228 ++ utf8 128512 ++ [ascii_of_N 255]) =
  B """a\""\\\n\x01\x7f\u00ad" ++ utf8 228 ++ B "\U0001f600\xff""".
Proof. vm_compute. reflexivity. Qed.
Definition ex_args : list arg :=
  [AString (B "x, ""}"); ABytes (B "hi"); AList [AString (B "a"); ATime (B "2020-01-02T03:04:05.000000006Z")]; AList []; AString []].
Example C78_ex_args : Forall plain_arg ex_args /\ Forall (shown_arg latin) ex_args /\
  join (B ", ") (span_args latin true (fun _ => []) ex_args) =
  B """x, \""}"", []uint8(0x6869), {""a"", time.Time(2020-01-02T03:04:05.000000006Z)}, {}, """"".
Proof.
  split; [|split; [|vm_compute; reflexivity]].
  - repeat apply Forall_cons_2; try exact I; try apply Forall_nil_2; vm_compute; discriminate.
  - repeat apply Forall_cons_2; try exact I; try apply Forall_nil_2. apply printable_ascii. vm_compute. reflexivity.
Qed.
