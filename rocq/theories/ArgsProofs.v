(** Proofs for C78. *)
From Verif Require Import Base BaseProofs PresentModel LayoutModel SvgModel SvgSpec SvgProofs ArgsModel ArgsSpec.
Local Open Scope Z_scope.
Local Arguments B : simpl never.

(** ** Hexadecimal *)
Lemma hexd_byte d : 0 <= d < 16 -> byte (hexd d) = if d <? 10 then 48 + d else 87 + d.
Proof. intros H. unfold hexd. apply (byte_bz (if d <? 10 then 48 + d else 87 + d)). destruct (d <? 10); lia. Qed.
Lemma hexd_value d : 0 <= d < 16 -> hex_value (hexd d) = Some d.
Proof.
  intros H. unfold hex_value. rewrite hexd_byte by exact H.
  assert (d = 0 \/ d = 1 \/ d = 2 \/ d = 3 \/ d = 4 \/ d = 5 \/ d = 6 \/ d = 7 \/ d = 8 \/ d = 9 \/ d = 10 \/ d = 11 \/ d = 12 \/ d = 13 \/ d = 14 \/ d = 15) as C by lia.
  repeat (destruct C as [-> |C]; [reflexivity|]). subst d. reflexivity.
Qed.
Lemma hex_number_app s t : forall a, hex_number a (s ++ t) = match hex_number a s with Some b => hex_number b t | None => None end.
Proof. induction s as [|c s IH]; intros a; [reflexivity|]. cbn. destruct (hex_value c); [apply IH|reflexivity]. Qed.
Lemma hexn_value n : forall v a, 0 <= v < 16 ^ Z.of_nat n -> hex_number a (hexn n v) = Some (a * 16 ^ Z.of_nat n + v).
Proof.
  induction n as [|n IH]; intros v a H.
  - cbn in *. f_equal. lia.
  - rewrite Nat2Z.inj_succ, Z.pow_succ_r in * by lia. cbn [hexn]. rewrite hex_number_app, IH.
    + cbn [hex_number]. rewrite hexd_value by (apply Z.mod_pos_bound; lia). f_equal. dm v 16. lia.
    + split; [apply Z.div_pos; lia|]. apply Z.div_lt_upper_bound; lia.
Qed.
Lemma hexn_number n v : 0 <= v < 16 ^ Z.of_nat n -> hex_number 0 (hexn n v) = Some v.
Proof. intros H. rewrite hexn_value by exact H. f_equal. Qed.

(** ** Runes *)
Lemma scalarb_ok r : scalarb r = true <-> scalar r.
Proof. unfold scalarb, scalar. rewrite orb_true_iff, !andb_true_iff, !Z.leb_le, !Z.ltb_lt. reflexivity. Qed.
Lemma utf8_high r : scalar r -> 128 <= r -> Forall (fun c => 128 <= byte c) (utf8 r).
Proof.
  intros H L. unfold utf8. destruct (Z.ltb_spec r 128); [lia|]. unfold scalar in H.
  assert (U : forall n, 128 <= n < 256 -> 128 <= byte (ascii_of_N (Z.to_N n))) by (intros n Hn; change (ascii_of_N (Z.to_N n)) with (bz n); rewrite byte_bz; lia).
  destruct (Z.ltb_spec r 2048).
  { dm r 64. repeat (apply Forall_cons_2; [apply U; lia|]). apply Forall_nil_2. }
  destruct (Z.ltb_spec r 65536).
  { replace (r / 4096) with (r / 64 / 64) by (rewrite Z.div_div by lia; reflexivity). dm r 64. dm q 64.
    repeat (apply Forall_cons_2; [apply U; lia|]). apply Forall_nil_2. }
  replace (r / 262144) with (r / 64 / 64 / 64) by (rewrite !Z.div_div by lia; reflexivity). replace (r / 4096) with (r / 64 / 64) by (rewrite Z.div_div by lia; reflexivity).
  dm r 64. dm q 64. dm q0 64. repeat (apply Forall_cons_2; [apply U; lia|]). apply Forall_nil_2.
Qed.
Lemma utf8_low r : 0 <= r < 128 -> utf8 r = [bz r].
Proof. intros H. unfold utf8. destruct (Z.ltb_spec r 128); [reflexivity|lia]. Qed.
Lemma utf8_bytes r : scalar r -> (r < 128 /\ utf8 r = [bz r] /\ byte (bz r) = r) \/ (128 <= r /\ Forall (fun c => 128 <= byte c) (utf8 r)).
Proof.
  intros H. destruct (Z.lt_ge_cases r 128) as [L|L].
  - left. assert (0 <= r) by (unfold scalar in H; lia). split; [exact L|]. split; [apply utf8_low; lia|apply byte_bz; lia].
  - right. split; [exact L|apply utf8_high; assumption].
Qed.

(** ** Literals *)
Lemma add_add x y r : add_chars x (add_chars y r) = add_chars (x ++ y) r.
Proof. destruct r as [[s t]|]; [|reflexivity]. cbn. rewrite app_assoc. reflexivity. Qed.
Lemma lit_char c s : byte c <> 34 -> byte c <> 10 -> byte c <> 92 -> go_literal (c :: s) = add_chars [c] (go_literal s).
Proof.
  intros A C D. cbn [go_literal]. apply Z.eqb_neq in A, C, D. rewrite A, C, D. reflexivity.
Qed.
Lemma lit_chars x s : Forall (fun c => 128 <= byte c) x -> go_literal (x ++ s) = add_chars x (go_literal s).
Proof.
  induction 1 as [|c x Hc _ IH]; [cbn; destruct (go_literal s) as [[? ?]|]; reflexivity|]. cbn [app]. rewrite lit_char by lia. rewrite IH, add_add. reflexivity.
Qed.
Lemma lit_rune r s : scalar r -> r <> 34 -> r <> 10 -> r <> 92 -> go_literal (utf8 r ++ s) = add_chars (utf8 r) (go_literal s).
Proof.
  intros H A C D. destruct (utf8_bytes r H) as [(L & -> & E)|(L & F)]; [|apply lit_chars, F]. cbn [app]. apply lit_char; congruence.
Qed.
Lemma lit_x v s : 0 <= v < 256 -> go_literal ((B "\x" ++ hexn 2 v) ++ s) = add_chars [bz v] (go_literal s).
Proof.
  intros H. pose proof (hexn_number 2 v ltac:(cbn; lia)) as E. cbn [hexn app] in E. rewrite <- app_assoc. cbn [hexn app]. change (B "\x") with ["\"%char; "x"%char]. cbn [app].
  cbn [go_literal]. change (byte "\") with 92. change (byte "x") with 120. cbn [Z.eqb Pos.eqb].
  change (simple_escape "x") with (@None Z). cbn match. rewrite E. reflexivity.
Qed.
Lemma lit_u r s : scalar r -> r < 65536 -> go_literal ((B "\u" ++ hexn 4 r) ++ s) = add_chars (utf8 r) (go_literal s).
Proof.
  intros H L. pose proof (hexn_number 4 r ltac:(unfold scalar in H; cbn; lia)) as E. cbn [hexn app] in E. rewrite <- app_assoc. cbn [hexn app]. change (B "\u") with ["\"%char; "u"%char]. cbn [app].
  cbn [go_literal]. change (byte "\") with 92. change (byte "u") with 117. cbn [Z.eqb Pos.eqb].
  change (simple_escape "u") with (@None Z). cbn match. unfold rune_bytes. rewrite E. apply scalarb_ok in H. rewrite H. reflexivity.
Qed.
Lemma lit_U r s : scalar r -> go_literal ((B "\U" ++ hexn 8 r) ++ s) = add_chars (utf8 r) (go_literal s).
Proof.
  intros H. pose proof (hexn_number 8 r ltac:(unfold scalar in H; cbn; lia)) as E. cbn [hexn app] in E. rewrite <- app_assoc. cbn [hexn app]. change (B "\U") with ["\"%char; "U"%char]. cbn [app].
  cbn [go_literal]. change (byte "\") with 92. change (byte "U") with 85. cbn [Z.eqb Pos.eqb].
  change (simple_escape "U") with (@None Z). cbn match. unfold rune_bytes. rewrite E. apply scalarb_ok in H. rewrite H. reflexivity.
Qed.
Lemma lit_simple e v s : simple_escape e = Some v -> go_literal ([backslash; e] ++ s) = add_chars [bz v] (go_literal s).
Proof. intros E. cbn [app go_literal]. change (byte backslash) with 92. cbn [Z.eqb Pos.eqb]. rewrite E. reflexivity. Qed.

Section quote.
  Context (table : Z -> bool) (short_del : bool).
  Local Notation is_print := (is_print table).
  Lemma lit_escape r s : scalar r -> go_literal (escape_quoted table short_del r (utf8 r) ++ s) = add_chars (utf8 r) (go_literal s).
  Proof.
    intros H. unfold escape_quoted.
    destruct (Z.eqb_spec r 34) as [->|N34]; [apply (lit_simple quote 34 s eq_refl)|].
    destruct (Z.eqb_spec r 92) as [->|N92]; [apply (lit_simple backslash 92 s eq_refl)|]. cbn [orb].
    destruct (is_print r) eqn:Ep.
    { apply lit_rune; try assumption. intros ->. discriminate Ep. }
    destruct (Z.eqb_spec r 7) as [->|N7]; [apply (lit_simple "a"%char 7 s eq_refl)|].
    destruct (Z.eqb_spec r 8) as [->|N8]; [apply (lit_simple "b"%char 8 s eq_refl)|].
    destruct (Z.eqb_spec r 12) as [->|N12]; [apply (lit_simple "f"%char 12 s eq_refl)|].
    destruct (Z.eqb_spec r 10) as [->|N10]; [apply (lit_simple "n"%char 10 s eq_refl)|].
    destruct (Z.eqb_spec r 13) as [->|N13]; [apply (lit_simple "r"%char 13 s eq_refl)|].
    destruct (Z.eqb_spec r 9) as [->|N9]; [apply (lit_simple "t"%char 9 s eq_refl)|].
    destruct (Z.eqb_spec r 11) as [->|N11]; [apply (lit_simple "v"%char 11 s eq_refl)|].
    destruct ((r <? 32) || ((r =? 127) && short_del)) eqn:Ex.
    { assert (0 <= r < 128).
      { unfold scalar in H. apply orb_prop in Ex as [Ex|Ex]; [apply Z.ltb_lt in Ex; lia|]. apply andb_prop in Ex as [Ex _]. apply Z.eqb_eq in Ex. lia. }
      rewrite lit_x by lia. rewrite utf8_low by lia. reflexivity. }
    destruct (Z.ltb_spec r 65536); [apply lit_u; assumption|apply lit_U; assumption].
  Qed.
  (** DecodeRune takes one rune off. *)
  Lemma decode_cases c s : (decode_rune (c :: s) = (rune_error, 1%nat)) \/
    (exists r s', scalar r /\ c :: s = utf8 r ++ s' /\ decode_rune (c :: s) = (r, length (utf8 r)) /\ ((length (utf8 r) =? 1)%nat && (r =? rune_error)) = false /\ (length s' <= length s)%nat).
  Proof.
    destruct (decode_sound (c :: s) ltac:(discriminate)) as [E|(r & s' & Hr & E & D)]; [left; exact E|right].
    exists r, s'. split; [exact Hr|]. split; [exact E|]. split; [exact D|]. split.
    - destruct (Z.eqb_spec r rune_error) as [->|]; [reflexivity|apply andb_false_r].
    - apply (f_equal (@length ascii)) in E. rewrite app_length in E. cbn in E. pose proof (utf8_nonnil r). destruct (utf8 r); [contradiction|cbn in E; lia].
  Qed.
  Lemma quote_literal fuel : forall s rest, (length s <= fuel)%nat -> go_literal (quote_go table short_del fuel s ++ quote :: rest) = Some (s, rest).
  Proof.
    induction fuel as [|fuel IH]; intros s rest Hf.
    - destruct s; [reflexivity|cbn in Hf; lia].
    - destruct s as [|c s]; [reflexivity|]. cbn [quote_go]. cbn [length] in Hf.
      destruct (decode_cases c s) as [E|(r & s' & Hr & Es & D & Nb & Hl)].
      + rewrite E. cbn [Nat.eqb rune_error Z.eqb Pos.eqb andb]. rewrite <- app_assoc. rewrite lit_x by apply byte_range. change (drop 1 (c :: s)) with s. rewrite IH by lia.
        rewrite bz_byte. reflexivity.
      + rewrite D, Nb, Es, take_app, drop_app. rewrite <- app_assoc, lit_escape by exact Hr. rewrite IH by lia. reflexivity.
  Qed.
  Lemma go_quote_unquote s : go_unquote (go_quote table short_del s) = Some s.
  Proof. unfold go_unquote, go_quote. cbn [app]. change (byte quote =? 34) with true. cbn match. rewrite quote_literal by lia. reflexivity. Qed.
  Lemma quote_item s rest : read_item (go_quote table short_del s ++ rest) = Some (AString s, rest).
  Proof.
    unfold read_item, go_quote. rewrite <- !app_assoc. cbn [app strip]. rewrite Ascii.eqb_refl. rewrite quote_literal by lia. reflexivity.
  Qed.

  (** ** Printable *)
  Lemma printable_app s t : printable table s -> printable table t -> printable table (s ++ t).
  Proof. intros (rs & -> & Hr) (ts & -> & Ht). exists (rs ++ ts). split; [rewrite map_app, concat_app; reflexivity|]. apply Forall_app_2; assumption. Qed.
  Lemma printable_ascii s : forallb (fun c => (32 <=? byte c) && (byte c <? 127)) s = true -> printable table s.
  Proof.
    induction s as [|c s IH]; intros H; [exists []; split; [reflexivity|constructor]|]. cbn in H. apply andb_prop in H as [Hc Hs].
    apply (printable_app [c] s); [|apply IH, Hs]. apply andb_prop in Hc as [Ha Hb]. apply Z.leb_le in Ha. apply Z.ltb_lt in Hb.
    exists [byte c]. split; [cbn [map concat]; rewrite app_nil_r, utf8_low by lia; rewrite bz_byte; reflexivity|].
    constructor; [|constructor]. split; [apply scalarb_ok; left; lia|]. unfold ArgsModel.is_print. destruct (Z.ltb_spec (byte c) 128); [|lia].
    apply andb_true_intro. split; [apply Z.leb_le|apply Z.ltb_lt]; lia.
  Qed.
  Lemma hexd_printable d : 0 <= d < 16 -> (32 <=? byte (hexd d)) && (byte (hexd d) <? 127) = true.
  Proof. intros H. rewrite hexd_byte by exact H. apply andb_true_intro. destruct (Z.ltb_spec d 10); split; try apply Z.leb_le; try apply Z.ltb_lt; lia. Qed.
  Lemma hexn_printable n : forall v, printable table (hexn n v).
  Proof.
    induction n as [|n IH]; intros v; [exists []; split; [reflexivity|constructor]|]. cbn [hexn]. apply printable_app; [apply IH|].
    apply printable_ascii. cbn [forallb]. rewrite hexd_printable by (apply Z.mod_pos_bound; lia). reflexivity.
  Qed.
  Lemma lit_printable s : forallb (fun c => (32 <=? byte c) && (byte c <? 127)) (B s) = true -> printable table (B s).
  Proof. apply printable_ascii. Qed.
  Lemma escape_printable r : scalar r -> printable table (escape_quoted table short_del r (utf8 r)).
  Proof.
    intros H. unfold escape_quoted. assert (R : is_print r = true -> printable table (utf8 r)).
    { intros P. exists [r]. split; [cbn; rewrite app_nil_r; reflexivity|]. constructor; [|constructor]. split; [apply scalarb_ok, H|exact P]. }
    destruct (_ || _) eqn:E.
    { apply printable_app; [apply printable_ascii; reflexivity|]. apply R. apply orb_prop in E as [E|E]; apply Z.eqb_eq in E; subst r; reflexivity. }
    destruct (is_print r) eqn:Ep; [apply R; reflexivity|].
    repeat (match goal with |- printable _ (if ?b then B _ else _) => destruct b; [apply printable_ascii; vm_compute; reflexivity|] end).
    clear E. destruct (_ || _); [apply printable_app; [apply printable_ascii; vm_compute; reflexivity|apply hexn_printable]|].
    destruct (_ <? _); (apply printable_app; [apply printable_ascii; vm_compute; reflexivity|apply hexn_printable]).
  Qed.
  Lemma quote_printable s : printable table (go_quote table short_del s).
  Proof.
    unfold go_quote. apply printable_app; [apply printable_ascii; reflexivity|]. apply printable_app; [|apply printable_ascii; reflexivity].
    generalize (le_n (length s)). generalize (length s) at 2 3. intros fuel. revert s.
    induction fuel as [|fuel IH]; intros s Hf; [exists []; split; [reflexivity|constructor]|].
    destruct s as [|c s]; [exists []; split; [reflexivity|constructor]|]. cbn [quote_go]. cbn [length] in Hf.
    destruct (decode_cases c s) as [E|(r & s' & Hr & Es & D & Nb & Hl)].
    - rewrite E. cbn [Nat.eqb rune_error Z.eqb Pos.eqb andb]. apply printable_app; [apply printable_app; [apply printable_ascii; vm_compute; reflexivity|apply hexn_printable]|].
      change (drop 1 (c :: s)) with s. apply IH. lia.
    - rewrite D, Nb, Es, take_app, drop_app. apply printable_app; [apply escape_printable, Hr|]. apply IH. lia.
  Qed.

  (** ** Argument lists *)
  Lemma hexn_two v : hexn 2 v = [hexd (v / 16 mod 16); hexd (v mod 16)].
  Proof. reflexivity. Qed.
  Lemma hexd_paren d : 0 <= d < 16 -> byte (hexd d) =? 41 = false.
  Proof. intros H. rewrite hexd_byte by exact H. apply Z.eqb_neq. destruct (Z.ltb_spec d 10); lia. Qed.
  Lemma until_paren_ok x rest : Forall (fun c => byte c <> 41) x -> until_paren (x ++ B ")" ++ rest) = Some (x, rest).
  Proof. induction 1 as [|c x Hc _ IH]; [reflexivity|]. cbn [app until_paren]. apply Z.eqb_neq in Hc. rewrite Hc, IH. reflexivity. Qed.
  Lemma hex_string_paren s : Forall (fun c => byte c <> 41) (hex_string s).
  Proof.
    unfold hex_string. induction s as [|c s IH]; [constructor|]. cbn [map concat]. rewrite hexn_two. cbn [app].
    pose proof (Z.mod_pos_bound (byte c / 16) 16 ltac:(lia)). pose proof (Z.mod_pos_bound (byte c) 16 ltac:(lia)).
    apply Forall_cons_2; [apply Z.eqb_neq, hexd_paren; lia|]. apply Forall_cons_2; [apply Z.eqb_neq, hexd_paren; lia|exact IH].
  Qed.
  Lemma hex_string_bytes s : hex_bytes (hex_string s) = Some s.
  Proof.
    unfold hex_string. induction s as [|c s IH]; [reflexivity|]. cbn [map concat]. pose proof (hexn_number 2 (byte c) ltac:(pose proof (byte_range c); cbn; lia)) as E.
    rewrite hexn_two in *. cbn [app hex_bytes]. rewrite E, IH. change (ascii_of_N (Z.to_N (byte c))) with (bz (byte c)). rewrite bz_byte. reflexivity.
  Qed.
  Lemma strip_app p s : strip p (p ++ s) = Some s.
  Proof. induction p as [|c p IH]; [reflexivity|]. cbn. rewrite Ascii.eqb_refl. exact IH. Qed.
  Context (other : list arg -> bytes).
  Local Notation item_text := (item_text table short_del other).
  Lemma item_read a rest : plain_item a -> read_item (item_text a ++ rest) = Some (a, rest).
  Proof.
    intros P. destruct a as [s|s|t|l|t]; cbn [ArgsModel.item_text]; try contradiction.
    - apply quote_item.
    - unfold read_item. rewrite <- !app_assoc. change (strip [quote] (B "[]uint8(0x" ++ ?r)) with (@None bytes). cbn match. rewrite strip_app.
      rewrite until_paren_ok by apply hex_string_paren. rewrite hex_string_bytes. reflexivity.
    - unfold read_item. rewrite <- !app_assoc. change (strip [quote] (B "time.Time(" ++ ?r)) with (@None bytes). cbn match.
      change (strip (B "[]uint8(0x") (B "time.Time(" ++ ?r)) with (@None bytes). cbn match. rewrite strip_app. rewrite until_paren_ok by exact P. reflexivity.
  Qed.
  Lemma read_list_ok {A} (read : bytes -> option (A * bytes)) (text : A -> bytes) (ok : A -> Prop) :
    (forall a rest, ok a -> read (text a ++ rest) = Some (a, rest)) ->
    forall l fuel rest, l <> [] -> Forall ok l -> (length l <= fuel)%nat -> strip (B ", ") rest = None ->
      read_list read fuel (join (B ", ") (map text l) ++ rest) = Some (l, rest).
  Proof.
    intros R. induction l as [|a l IH]; intros fuel rest N F Hf Hr; [contradiction|]. inversion F; subst. destruct fuel as [|fuel]; [cbn in Hf; lia|].
    destruct l as [|b l].
    - cbn [map join read_list]. rewrite R by assumption. rewrite Hr. reflexivity.
    - change (map text (a :: b :: l)) with (text a :: text b :: map text l). change (join ?p (text a :: text b :: ?r)) with (text a ++ p ++ join p (text b :: r)).
      cbn [read_list]. rewrite <- !app_assoc. rewrite R by assumption. rewrite strip_app.
      change (text b :: map text l) with (map text (b :: l)). rewrite IH; [reflexivity|discriminate|assumption|cbn in *; lia|exact Hr].
  Qed.
  Lemma join_length (text : arg -> bytes) l : (length l <= S (length (join (B ", ") (map text l))))%nat.
  Proof.
    induction l as [|a l IH]; [cbn; lia|]. destruct l as [|b l]; [cbn; lia|].
    change (map text (a :: b :: l)) with (text a :: text b :: map text l). change (join ?p (text a :: text b :: ?r)) with (text a ++ p ++ join p (text b :: r)).
    change (text b :: map text l) with (map text (b :: l)). rewrite !app_length. change (length (B ", ")) with 2%nat. cbn [length] in *. lia.
  Qed.
  Definition arg_text (a : arg) : bytes := match a with AList l => interfaces_to_string table short_del other l | _ => item_text a end.
  Lemma item_first a : plain_item a -> exists c x, item_text a = c :: x /\ byte c <> 123 /\ byte c <> 125.
  Proof.
    intros P. destruct a; cbn [ArgsModel.item_text]; try contradiction.
    - unfold go_quote. cbn [app]. eexists _, _. split; [reflexivity|]. split; discriminate.
    - eexists _, _. split; [reflexivity|]. split; vm_compute; discriminate.
    - eexists _, _. split; [reflexivity|]. split; vm_compute; discriminate.
  Qed.
  Lemma strip_one p c x : byte c <> byte p -> strip [p] (c :: x) = None.
  Proof. intros H. cbn. destruct (Ascii.eqb_spec p c) as [->|]; [contradiction|reflexivity]. Qed.
  Lemma arg_read a rest : plain_arg a -> read_arg (arg_text a ++ rest) = Some (a, rest).
  Proof.
    intros P. unfold read_arg. assert (It : plain_item a -> strip (B "{") (item_text a ++ rest) = None).
    { intros Q. destruct (item_first a Q) as (c & x & -> & N & _). apply (strip_one "{"%char c). exact N. }
    destruct a as [s|s|t|l|t]; try contradiction; cbn [arg_text].
    1-3: rewrite It by exact P; apply item_read; exact P.
    unfold interfaces_to_string. rewrite <- !app_assoc. rewrite strip_app.
    destruct l as [|a l]; [reflexivity|]. cbn [plain_arg] in P.
    assert (Nb : strip (B "}") (join (B ", ") (map item_text (a :: l)) ++ B "}" ++ rest) = None).
    { inversion P; subst. destruct (item_first a ltac:(assumption)) as (c & x & E & _ & N).
      assert (exists y, join (B ", ") (map item_text (a :: l)) = c :: y) as [y Hy].
      { destruct l as [|b l]; cbn [map join]; rewrite E; eexists; reflexivity. }
      rewrite Hy. apply (strip_one "}"%char c). exact N. }
    rewrite Nb. rewrite (read_list_ok read_item item_text plain_item).
    - rewrite strip_app. reflexivity.
    - exact item_read.
    - discriminate.
    - exact P.
    - pose proof (join_length item_text (a :: l)). rewrite app_length. lia.
    - reflexivity.
  Qed.
  Lemma args_read l : Forall plain_arg l -> read_args (join (B ", ") (span_args table short_del other l)) = Some l.
  Proof.
    intros F. change (span_args table short_del other l) with (map arg_text l). destruct l as [|a l]; [reflexivity|].
    assert (N : join (B ", ") (map arg_text (a :: l)) <> []).
    { inversion F; subst. assert (E : arg_text a <> []).
      { destruct a; cbn [arg_text]; try discriminate; cbn in *; try contradiction; discriminate. }
      destruct l as [|b l]; cbn [map join]; [exact E|]. intros H. apply app_eq_nil in H as [H _]. contradiction. }
    unfold read_args. destruct (join (B ", ") (map arg_text (a :: l))) as [|c x] eqn:E; [contradiction|]. rewrite <- E.
    pose proof (read_list_ok read_arg arg_text plain_arg arg_read (a :: l) (S (length (join (B ", ") (map arg_text (a :: l))))) [] ltac:(discriminate) F (join_length arg_text (a :: l)) eq_refl) as R.
    rewrite app_nil_r in R. rewrite R. reflexivity.
  Qed.
End quote.

Section lines.
  Context (table : Z -> bool) (short_del : bool) (other : list arg -> bytes).
  Lemma join_printable l : Forall (printable table) l -> printable table (join (B ", ") l).
  Proof.
    induction 1 as [|a l Ha Hl IH]; [apply printable_ascii; reflexivity|]. destruct l as [|b l]; [exact Ha|].
    change (join (B ", ") (a :: b :: l)) with (a ++ B ", " ++ join (B ", ") (b :: l)).
    apply printable_app; [exact Ha|]. apply printable_app; [apply printable_ascii; vm_compute; reflexivity|exact IH].
  Qed.
  Lemma hex_string_printable s : printable table (hex_string s).
  Proof. unfold hex_string. induction s as [|c s IH]; [apply printable_ascii; reflexivity|]. cbn [map concat]. apply printable_app; [apply hexn_printable|exact IH]. Qed.
  Lemma item_printable a : shown_item table a -> printable table (item_text table short_del other a).
  Proof.
    destruct a; intros H; cbn [item_text]; try contradiction.
    - apply quote_printable.
    - repeat apply printable_app; try apply hex_string_printable; apply printable_ascii; vm_compute; reflexivity.
    - repeat apply printable_app; try exact H; apply printable_ascii; vm_compute; reflexivity.
    - exact H.
  Qed.
  Lemma args_printable l : Forall (shown_arg table) l -> printable table (join (B ", ") (span_args table short_del other l)).
  Proof.
    intros F. apply join_printable. unfold span_args. induction F as [|a l Ha _ IH]; [constructor|]. cbn [map]. constructor; [|exact IH].
    destruct a; try (apply item_printable; exact Ha). unfold interfaces_to_string.
    apply printable_app; [apply printable_ascii; vm_compute; reflexivity|]. apply printable_app; [|apply printable_ascii; vm_compute; reflexivity].
    apply join_printable. cbn [shown_arg] in Ha. induction Ha as [|b l' Hb _ IHb]; [constructor|]. constructor; [apply item_printable, Hb|exact IHb].
  Qed.
  (** A printable text has no control characters. *)
  Lemma printable_line s c : printable table s -> c ∈ s -> 32 <= byte c /\ byte c <> 127.
  Proof.
    intros (rs & -> & F). induction F as [|r rs [Hs Hp] _ IH]; cbn [map concat]; [intros H; inversion H|].
    rewrite elem_of_app. intros [H|H]; [|exact (IH H)]. apply scalarb_ok in Hs. destruct (utf8_bytes r Hs) as [(L & E & Eb)|(L & Fh)].
    - rewrite E in H. apply elem_of_list_singleton in H. subst c. rewrite Eb. unfold is_print in Hp. destruct (Z.ltb_spec r 128); [|lia].
      apply andb_prop in Hp as [A C]. apply Z.leb_le in A. apply Z.ltb_lt in C. lia.
    - rewrite Forall_forall in Fh. specialize (Fh c H). lia.
  Qed.
End lines.
