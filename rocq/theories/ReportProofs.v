(** Proofs about the DOT reports. *)
From Verif Require Import Base BaseProofs PresentModel PresentSpec PresentProofs SvgModel SvgSpec SvgNumProofs ArgsSpec ReportModel ReportSpec.
Local Open Scope Z_scope.
Local Arguments B : simpl never.

(** ** Tokens *)
Definition add_toks (ts : list dtoken) (r : option (list dtoken)) : option (list dtoken) := match r with Some l => Some (ts ++ l) | None => None end.
Lemma add_toks_nil r : add_toks [] r = r.
Proof. destruct r; reflexivity. Qed.
Lemma add_toks_app a b r : add_toks a (add_toks b r) = add_toks (a ++ b) r.
Proof. destruct r; cbn; [rewrite app_assoc|]; reflexivity. Qed.
Lemma lex_cons m c s : lex m (c :: s) = match lex_step m c with Some (ts, m') => add_toks ts (lex m' s) | None => None end.
Proof. reflexivity. Qed.
Fixpoint lexrun (m : dmode) (p : bytes) : option (list dtoken * dmode) :=
  match p with
  | [] => Some ([], m)
  | c :: p' => match lex_step m c with
               | Some (ts, m') => match lexrun m' p' with Some (us, m'') => Some (ts ++ us, m'') | None => None end
               | None => None
               end
  end.
Lemma lex_run p : forall m s ts m', lexrun m p = Some (ts, m') -> lex m (p ++ s) = add_toks ts (lex m' s).
Proof.
  induction p as [|c p IH]; intros m s ts m' H; cbn [lexrun] in H.
  - apply Some_inj, pair_equal_spec in H as [<- <-]. rewrite add_toks_nil. reflexivity.
  - cbn [app]. rewrite lex_cons. destruct (lex_step m c) as [[us m1]|]; [|discriminate]. destruct (lexrun m1 p) as [[vs m2]|] eqn:E; [|discriminate].
    apply Some_inj, pair_equal_spec in H as [<- <-]. rewrite (IH _ s _ _ E). apply add_toks_app.
Qed.
Ltac lexlit := rewrite ?app_assoc; apply lex_run; vm_compute; reflexivity.
Definition lexes (p : bytes) (ts : list dtoken) : Prop := forall s, lex LOut (p ++ s) = add_toks ts (lex LOut s).
Lemma lexes_app p q ts us : lexes p ts -> lexes q us -> lexes (p ++ q) (ts ++ us).
Proof. intros H1 H2 s. rewrite <- app_assoc, H1, H2. apply add_toks_app. Qed.
Lemma lexes_nil : lexes [] [].
Proof. intros s. rewrite add_toks_nil. reflexivity. Qed.
Lemma lex_name l : forall cur c s, forallb id_char l = true -> id_char c = false -> lex (LName cur) (l ++ c :: s) = add_toks [DId (cur ++ l)] (lex LOut (c :: s)).
Proof.
  induction l as [|x l IH]; intros cur c s Hl Hc.
  - cbn [app]. rewrite !lex_cons, app_nil_r. unfold lex_step. rewrite Hc. destruct (lex_out c) as [[ts m']|]; [|reflexivity]. rewrite add_toks_app. reflexivity.
  - cbn [forallb] in Hl. apply andb_prop in Hl as [Hx Hl]. cbn [app]. rewrite lex_cons. unfold lex_step. rewrite Hx, add_toks_nil, (IH _ _ _ Hl Hc), <- app_assoc. reflexivity.
Qed.
Definition str_char (c : ascii) : bool := negb (Ascii.eqb c quote) && negb (Ascii.eqb c backslash).
Lemma lex_chars l : forall cur s, forallb str_char l = true -> lex (LQuoted cur) (l ++ s) = lex (LQuoted (cur ++ l)) s.
Proof.
  induction l as [|x l IH]; intros cur s Hl; [rewrite app_nil_r; reflexivity|]. cbn [forallb] in Hl. apply andb_prop in Hl as [Hx Hl]. unfold str_char in Hx.
  apply andb_prop in Hx as [H1 H2]. apply negb_true_iff in H1, H2. cbn [app]. rewrite lex_cons. unfold lex_step. rewrite H1, H2, add_toks_nil, (IH _ _ Hl), <- app_assoc. reflexivity.
Qed.
Lemma dot_byte_cases c : forallb str_char (dot_byte c) = true \/ dot_byte c = [backslash; "l"%char].
Proof. destruct c as [[] [] [] [] [] [] [] []]; first [left; vm_compute; reflexivity|right; vm_compute; reflexivity]. Qed.
Lemma lex_escaped t : forall cur s, lex (LQuoted cur) (escape_dot t ++ s) = lex (LQuoted (cur ++ escape_dot t)) s.
Proof.
  induction t as [|c t IH]; intros cur s; [cbn; rewrite app_nil_r; reflexivity|]. unfold escape_dot. cbn [flat_map]. fold (escape_dot t). rewrite <- app_assoc.
  destruct (dot_byte_cases c) as [H|H].
  - rewrite (lex_chars _ _ _ H), IH, <- app_assoc. reflexivity.
  - rewrite H. cbn [app]. rewrite lex_cons. cbn [lex_step]. change (Ascii.eqb backslash quote) with false. change (Ascii.eqb backslash backslash) with true. cbv iota.
    rewrite add_toks_nil, lex_cons. cbn [lex_step]. change (Ascii.eqb "l" quote) with false. change (Ascii.eqb "l" newline) with false. cbv iota. rewrite add_toks_nil, IH, <- app_assoc. reflexivity.
Qed.
Lemma dec_digit_id d : dig d -> id_char (dec_digit d) = true.
Proof. unfold dig. intros H. assert (d = 0 \/ d = 1 \/ d = 2 \/ d = 3 \/ d = 4 \/ d = 5 \/ d = 6 \/ d = 7 \/ d = 8 \/ d = 9) as E by lia.
  repeat destruct E as [->|E]; try subst d; reflexivity. Qed.
Lemma dec_id v : 0 <= v < 2 ^ 63 -> forallb id_char (dec v) = true.
Proof.
  intros H. destruct (dec_digits v) as (ds & -> & _ & Hd & _); [lia|]. apply forallb_forall. intros c Hc. apply in_map_iff in Hc as (d & <- & Hd').
  rewrite Forall_forall in Hd. apply dec_digit_id, Hd, elem_of_list_In, Hd'.
Qed.
Ltac lexc := cbn [app]; rewrite lex_cons; cbn [lex_step]; match goal with |- context [lex_out ?c] => let r := eval vm_compute in (lex_out c) in change (lex_out c) with r end; cbv iota.
Lemma lex_named x v p s : id_start x = true -> xspace x = false -> 0 <= v < 2 ^ 63 -> id_char p = false ->
  lex LOut (x :: dec v ++ p :: s) = add_toks [DId (x :: dec v)] (lex LOut (p :: s)).
Proof. intros Hx Hs Hv Hp. rewrite lex_cons. cbn [lex_step]. unfold lex_out. rewrite Hs, Hx, add_toks_nil, (lex_name _ _ _ _ (dec_id v Hv) Hp). reflexivity. Qed.
Definition node_toks (n label : bytes) : list dtoken := [DId n; DPunct "["; DId (B "label"); DPunct "="; DString label; DPunct "]"; DPunct ";"].
Definition edge_toks (a b : bytes) : list dtoken := [DId a; DArrow; DId b; DPunct ";"].
Lemma lex_space s : lex LOut (" "%char :: s) = lex LOut s.
Proof. rewrite lex_cons. cbn [lex_step]. change (lex_out " ") with (Some ([] : list dtoken, LOut)). cbv iota. apply add_toks_nil. Qed.
Lemma lex_newline s : lex LOut (newline :: s) = lex LOut s.
Proof. rewrite lex_cons. cbn [lex_step]. change (lex_out newline) with (Some ([] : list dtoken, LOut)). cbv iota. apply add_toks_nil. Qed.
Lemma lex_label s : lex LOut (B " [label=" ++ [quote] ++ s) = add_toks [DPunct "["; DId (B "label"); DPunct "="] (lex (LQuoted []) s).
Proof. lexlit. Qed.
Lemma lex_close cur s : lex (LQuoted cur) (dot_close ++ s) = add_toks [DString cur; DPunct "]"; DPunct ";"] (lex LOut s).
Proof. apply lex_run. reflexivity. Qed.
Lemma lex_arrow s : lex LOut (B " -> " ++ s) = add_toks [DArrow] (lex LOut s).
Proof. lexlit. Qed.
Lemma lex_semi s : lex LOut (B ";" ++ [newline] ++ s) = add_toks [DPunct ";"] (lex LOut s).
Proof. lexlit. Qed.
Lemma node_lexes x v t : id_start x = true -> xspace x = false -> 0 <= v < 2 ^ 63 ->
  lexes (B " " ++ [x] ++ dec v ++ B " [label=" ++ [quote] ++ escape_dot t ++ dot_close) (node_toks (x :: dec v) (escape_dot t)).
Proof.
  intros Hx Hs Hv s. rewrite <- !app_assoc. change (B " " ++ [x] ++ ?y) with (" "%char :: x :: y). rewrite lex_space.
  change (B " [label=" ++ [quote] ++ ?y) with (" "%char :: B "[label=" ++ [quote] ++ y) at 1.
  rewrite (lex_named x v " " _ Hx Hs Hv eq_refl). change (" "%char :: B "[label=" ++ [quote] ++ ?y) with (B " [label=" ++ [quote] ++ y).
  rewrite lex_label, lex_escaped, lex_close, !add_toks_app. reflexivity.
Qed.
Lemma edge_lexes x y a b : id_start x = true -> xspace x = false -> id_start y = true -> xspace y = false -> 0 <= a < 2 ^ 63 -> 0 <= b < 2 ^ 63 ->
  lexes (B " " ++ [x] ++ dec a ++ B " -> " ++ [y] ++ dec b ++ B ";" ++ [newline]) (edge_toks (x :: dec a) (y :: dec b)).
Proof.
  intros Hx Hs Hy Ht Ha Hb s. rewrite <- !app_assoc. change (B " " ++ [x] ++ ?y) with (" "%char :: x :: y). rewrite lex_space.
  change (B " -> " ++ ?y) with (" "%char :: B "-> " ++ y) at 1.
  rewrite (lex_named x a " " _ Hx Hs Ha eq_refl). change (" "%char :: B "-> " ++ ?y) with (B " -> " ++ y).
  rewrite lex_arrow. change ([y] ++ ?z) with (y :: z). change (B ";" ++ [newline] ++ s) with (";"%char :: newline :: s). 
  rewrite (lex_named y b ";" _ Hy Ht Hb eq_refl). change (";"%char :: newline :: s) with (B ";" ++ [newline] ++ s). rewrite lex_semi, !add_toks_app. reflexivity.
Qed.

(** ** Statements *)
Definition toks (s : dstmt) : list dtoken :=
  match s with
  | DNode n [(_, l)] => node_toks n l
  | DEdge a b => edge_toks a b
  | _ => [DId (B "node"); DPunct "["; DId (B "shape"); DPunct "="; DId (B "box"); DPunct "]"; DPunct ";"]
  end.
Definition good_stmt (s : dstmt) : Prop :=
  match s with
  | DNode n a => keyword n = false /\ exists l, a = [(B "label", l)]
  | DEdge a b => keyword a = false /\ keyword b = false
  | DDefault a => a = [(B "shape", B "box")]
  end.
Lemma read_good l : Forall good_stmt l -> forall n, (length l < n)%nat -> read_stmts n (flat_map toks l ++ [DPunct "}"]) = Some (l, []).
Proof.
  induction 1 as [|s l Hs Hl IH]; intros n Hn; (destruct n as [|n]; [cbn in Hn; lia|]); [reflexivity|].
  cbn [length] in Hn. assert (Hn' : (length l < n)%nat) by lia. specialize (IH n Hn'). cbn [flat_map]. rewrite <- app_assoc.
  destruct s as [m a|a b|a]; cbn [good_stmt] in Hs.
  - destruct Hs as (K & v & ->). cbn [toks node_toks app read_stmts read_attrs semicolon]. cbn -[B keyword read_stmts]. rewrite K. cbn [semicolon]. cbn -[B read_stmts]. rewrite IH. reflexivity.
  - destruct Hs as (K1 & K2). cbn [toks edge_toks app read_stmts]. rewrite K1, K2. cbn -[B read_stmts]. rewrite IH. reflexivity.
  - subst a. cbn [toks app read_stmts read_attrs semicolon]. cbn -[B keyword read_stmts]. change (keyword (B "node")) with true. cbv iota. change (beqb (map lower (B "node")) (B "node")) with true. cbv iota. rewrite IH. reflexivity.
Qed.
Lemma toks_length l : (length l <= length (flat_map toks l))%nat.
Proof. induction l as [|s l IH]; [reflexivity|]. cbn [flat_map length]. rewrite app_length. destruct s as [n [|[] []]| |]; cbn -[flat_map]; lia. Qed.
Lemma lex_open s : lex LOut (dot_open ++ s) = add_toks ([DId (B "digraph"); DId (B "G"); DPunct "{"] ++ toks (DDefault [])) (lex LOut s).
Proof. lexlit. Qed.
(** A graph: what FuncsDot and SpansDot write around the statements. *)
Lemma graph_read body l : lexes body (flat_map toks l) -> Forall good_stmt l ->
  read_dot (dot_open ++ body ++ B "}" ++ [newline]) = Some (DDefault [(B "shape", B "box")] :: l).
Proof.
  intros Hb Hl. unfold read_dot. rewrite lex_open, Hb, add_toks_app.
  assert (E : lex LOut (B "}" ++ [newline]) = Some [DPunct "}"]) by (vm_compute; reflexivity). rewrite E. cbn [add_toks]. rewrite <- !app_assoc. cbn [app].
  change (beqb (map lower (B "digraph")) (B "digraph") && negb (keyword (B "G")) && Ascii.eqb "{" "{") with true. cbv iota.
  pose proof (read_good (DDefault [(B "shape", B "box")] :: l) ltac:(apply Forall_cons_2; [reflexivity|exact Hl])) as R. cbn [flat_map] in R. rewrite <- app_assoc in R.
  change (toks (DDefault [(B "shape", B "box")])) with (toks (DDefault [])) in R. rewrite R; [reflexivity|].
  rewrite !app_length. pose proof (toks_length l). change (length (toks (DDefault []))) with 7%nat. cbn [length]. lia.
Qed.
Lemma keyword_digit x v : existsb (Ascii.eqb x) (B "fr") = true -> 0 <= v < 2 ^ 63 -> keyword (x :: dec v) = false.
Proof.
  intros Hx Hv. assert (x = "f"%char \/ x = "r"%char) as E.
  { cbn in Hx. apply orb_prop in Hx as [Hx|Hx]; [left; apply Ascii.eqb_eq, Hx|]. apply orb_prop in Hx as [Hx|Hx]; [right; apply Ascii.eqb_eq, Hx|discriminate]. }
  unfold keyword. cbn [map existsb]. assert (beq_false : forall l : bytes, (forall y m, l = y :: m -> y <> lower x) -> beqb (lower x :: map lower (dec v)) l = false).
  { intros l Hl. destruct (beqb _ l) eqn:Q; [|reflexivity]. apply beqb_true in Q. symmetry in Q. destruct (Hl _ _ Q eq_refl). }
  rewrite !beq_false; [reflexivity|..]; intros y m Q; vm_compute in Q; apply (f_equal head) in Q; cbn in Q; apply Some_inj in Q; subst y; destruct E as [-> | ->]; discriminate.
Qed.
Lemma dec_inj a b : 0 <= a < 2 ^ 63 -> 0 <= b < 2 ^ 63 -> dec a = dec b -> a = b.
Proof. intros Ha Hb E. apply Some_inj. rewrite <- (dec_read a), <- (dec_read b) by lia. rewrite E. reflexivity. Qed.

(** ** Labels *)
Lemma unlabel_digits ds : forall v s, Forall dig ds -> ds <> [] -> unlabel (UNum v) (map dec_digit ds ++ s) = unlabel (UNum (Some (value (default 0 v) ds))) s.
Proof.
  induction ds as [|d ds IH]; intros v s H Hn; [destruct (Hn eq_refl)|]. apply Forall_cons in H as [Hd H]. cbn [map app unlabel]. rewrite (dec_digit_value d Hd).
  destruct ds as [|e ds]; [reflexivity|]. rewrite (IH _ s H ltac:(discriminate)). reflexivity.
Qed.
Lemma plain_char c : dot_plain c = true -> Ascii.eqb c backslash = false /\ Ascii.eqb c "&" = false.
Proof. destruct c as [[] [] [] [] [] [] [] []]; vm_compute; intros H; try discriminate H; split; reflexivity. Qed.
Lemma low_utf8 c : dot_plain c = false -> utf8 (byte c) = [c].
Proof. destruct c as [[] [] [] [] [] [] [] []]; vm_compute; intros H; try discriminate H; reflexivity. Qed.
Lemma unlabel_byte c s : unlabel UText (dot_byte c ++ s) = add_text [c] (unlabel UText s).
Proof.
  unfold dot_byte. destruct (dot_plain c) eqn:P.
  - destruct (plain_char c P) as [H1 H2]. cbn [app unlabel]. rewrite H1, H2. reflexivity.
  - destruct (Ascii.eqb c newline) eqn:N; [apply Ascii.eqb_eq in N; subst c; reflexivity|].
    assert (Hb : 0 <= byte c < 256) by (unfold byte; pose proof (N_ascii_bounded c); lia).
    destruct (dec_digits (byte c)) as (ds & E & Hn & Hd & Hv); [lia|]. rewrite E, <- !app_assoc.
    change (B "&#" ++ ?y) with ("&"%char :: "#"%char :: y). cbn [unlabel]. change (Ascii.eqb "&" backslash) with false. change (Ascii.eqb "&" "&") with true. change (Ascii.eqb "#" "#") with true. cbv iota.
    rewrite (unlabel_digits ds None _ Hd Hn). cbn [default]. change (from_option (fun x => x) 0 None) with 0. rewrite Hv. change (B ";" ++ s) with (";"%char :: s). cbn [unlabel].
    change (digit_value ";") with (@None Z). change (Ascii.eqb ";" ";") with true. cbv iota. rewrite (low_utf8 c P). reflexivity.
Qed.
Lemma unlabel_escape t : unlabel UText (escape_dot t) = Some t.
Proof.
  induction t as [|c t IH]; [reflexivity|]. unfold escape_dot. cbn [flat_map]. rewrite unlabel_byte. fold (escape_dot t). rewrite IH. reflexivity.
Qed.
