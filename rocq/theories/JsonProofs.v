(** Proofs for C79-C80: the reader reads what Marshal writes. *)
From Coq Require Import Sorted.
From Verif Require Import Base BaseProofs PresentModel PresentSpec LayoutModel SvgModel SvgSpec SvgProofs SvgNumProofs ArgsModel ArgsSpec ArgsProofs JsonModel JsonSpec.
Local Open Scope Z_scope.
Local Arguments B : simpl never.

(** ** Strings *)
Lemma rs_char c s : byte c <> 34 -> 32 <= byte c -> byte c <> 92 -> read_string (c :: s) = add_chars [c] (read_string s).
Proof. intros A C D. cbn [read_string]. apply Z.eqb_neq in A, D. apply Z.ltb_ge in C. rewrite A, C, D. reflexivity. Qed.
Lemma rs_chars x s : Forall (fun c => 128 <= byte c) x -> read_string (x ++ s) = add_chars x (read_string s).
Proof.
  induction 1 as [|c x Hc _ IH]; [cbn; destruct (read_string s) as [[? ?]|]; reflexivity|]. cbn [app]. rewrite rs_char by lia. rewrite IH, add_add. reflexivity.
Qed.
Lemma rs_rune r s : scalar r -> r <> 34 -> 32 <= r -> r <> 92 -> read_string (utf8 r ++ s) = add_chars (utf8 r) (read_string s).
Proof. intros H A C D. destruct (utf8_bytes r H) as [(L & -> & E)|(L & F)]; [|apply rs_chars, F]. cbn [app]. apply rs_char; rewrite E; assumption. Qed.
Lemma rs_escape e v s : json_escape e = Some v -> read_string ([backslash; e] ++ s) = add_chars (utf8 v) (read_string s).
Proof. intros E. cbn [app read_string]. change (byte backslash) with 92. cbn [Z.eqb Z.ltb Z.compare Pos.compare Pos.compare_cont Pos.eqb]. rewrite E. reflexivity. Qed.
Lemma rs_u r s : scalar r -> r < 65536 -> read_string ((B "\u" ++ hexn 4 r) ++ s) = add_chars (utf8 r) (read_string s).
Proof.
  intros H L. pose proof (hexn_number 4 r ltac:(unfold scalar in H; cbn; lia)) as E. cbn [hexn app] in E. rewrite <- app_assoc. cbn [hexn app]. change (B "\u") with ["\"%char; "u"%char]. cbn [app].
  cbn [read_string]. change (byte "\") with 92. change (byte "u") with 117. cbn [Z.eqb Z.ltb Z.compare Pos.compare Pos.compare_cont Pos.eqb].
  change (json_escape "u") with (@None Z). cbn match. unfold rune_bytes. rewrite E. apply scalarb_ok in H. rewrite H. reflexivity.
Qed.
Lemma hexn_small r : 0 <= r < 256 -> B "\u00" ++ hexn 2 r = B "\u" ++ hexn 4 r.
Proof.
  intros H. cbn [hexn app]. assert (E : r / 16 / 16 = 0) by (rewrite Z.div_div by lia; apply Z.div_small; lia). rewrite E. reflexivity.
Qed.

(** The text shown for [s]. *)
Fixpoint repl_go (fuel : nat) (s : bytes) : bytes :=
  match fuel, s with
  | S fuel', _ :: _ => let (r, width) := decode_rune s in utf8 r ++ repl_go fuel' (drop width s)
  | _, _ => []
  end.
Definition repl (s : bytes) : bytes := repl_go (length s) s.

Section strings.
  Context (short_bf : bool).
  Lemma rs_json_rune r s : scalar r -> read_string (json_rune short_bf r (utf8 r) ++ s) = add_chars (utf8 r) (read_string s).
  Proof.
    intros H. unfold json_rune.
    destruct (Z.eqb_spec r 34) as [->|N34]; [apply (rs_escape quote 34 s eq_refl)|].
    destruct (Z.eqb_spec r 92) as [->|N92]; [apply (rs_escape backslash 92 s eq_refl)|]. cbn [orb].
    destruct ((r =? 8) && short_bf) eqn:E8.
    { apply andb_prop in E8 as [E8 _]. apply Z.eqb_eq in E8 as ->. apply (rs_escape "b"%char 8 s eq_refl). }
    destruct ((r =? 12) && short_bf) eqn:E12.
    { apply andb_prop in E12 as [E12 _]. apply Z.eqb_eq in E12 as ->. apply (rs_escape "f"%char 12 s eq_refl). }
    destruct (Z.eqb_spec r 10) as [->|N10]; [apply (rs_escape "n"%char 10 s eq_refl)|].
    destruct (Z.eqb_spec r 13) as [->|N13]; [apply (rs_escape "r"%char 13 s eq_refl)|].
    destruct (Z.eqb_spec r 9) as [->|N9]; [apply (rs_escape "t"%char 9 s eq_refl)|].
    destruct ((r <? 32) || (r =? 60) || (r =? 62) || (r =? 38)) eqn:Ex.
    { assert (0 <= r < 256). { unfold scalar in H. destruct (Z.ltb_spec r 32), (Z.eqb_spec r 60), (Z.eqb_spec r 62), (Z.eqb_spec r 38); cbn in Ex; try discriminate; lia. }
      rewrite hexn_small by lia. apply rs_u; [exact H|lia]. }
    destruct ((r =? 8232) || (r =? 8233)) eqn:E2.
    { apply orb_prop in E2 as [E|E]; apply Z.eqb_eq in E as ->; apply (rs_u _ s H); lia. }
    apply rs_rune; try assumption. destruct (Z.ltb_spec r 32); [discriminate Ex|lia].
  Qed.
  Lemma rs_string fuel : forall s rest, (length s <= fuel)%nat -> read_string (json_string_go short_bf fuel s ++ quote :: rest) = Some (repl_go fuel s, rest).
  Proof.
    induction fuel as [|fuel IH]; intros s rest Hf.
    - destruct s; [reflexivity|cbn in Hf; lia].
    - destruct s as [|c s]; [reflexivity|]. cbn [json_string_go repl_go]. cbn [length] in Hf.
      destruct (decode_cases (fun _ => true) c s) as [E|(r & s' & Hr & Es & D & Nb & Hl)].
      + rewrite E. cbn [Nat.eqb rune_error Z.eqb Pos.eqb andb]. rewrite <- app_assoc. change (drop 1 (c :: s)) with s.
        change (B "\ufffd") with (B "\u" ++ hexn 4 65533). rewrite rs_u by (unfold scalar; lia). rewrite IH by lia. reflexivity.
      + rewrite D, Nb, Es, take_app, drop_app. rewrite <- app_assoc, rs_json_rune by exact Hr. rewrite IH by lia. reflexivity.
  Qed.
  Lemma rs_json s rest : exists x, json_string short_bf s ++ rest = quote :: x /\ read_string x = Some (repl s, rest).
  Proof.
    unfold json_string. rewrite <- !app_assoc. cbn [app]. eexists. split; [reflexivity|]. apply rs_string. lia.
  Qed.
End strings.
Lemma repl_go_replaced fuel : forall s, (length s <= fuel)%nat -> replaced s (repl_go fuel s).
Proof.
  induction fuel as [|fuel IH]; intros s Hf.
  - destruct s; [constructor|cbn in Hf; lia].
  - destruct s as [|c s]; [constructor|]. cbn [repl_go]. cbn [length] in Hf.
    destruct (decode_cases (fun _ => true) c s) as [E|(r & s' & Hr & Es & D & Nb & Hl)].
    + rewrite E. change (drop 1 (c :: s)) with s. apply replaced_byte; [|apply IH; lia].
      intros r s' Hr Eq. apply scalarb_ok in Hr. pose proof (decode_utf8 r s' Hr) as D. rewrite <- Eq, E in D. apply pair_equal_spec in D as [<- D]. vm_compute in D. discriminate.
    + rewrite D, Es, drop_app. apply replaced_rune; [apply scalarb_ok, Hr|apply IH; lia].
Qed.
Lemma repl_replaced s : replaced s (repl s).
Proof. apply repl_go_replaced. lia. Qed.
Lemma replaced_exact s t : utf8_text s -> replaced s t -> t = s.
Proof.
  intros (rs & F & ->). revert t. induction F as [|r rs Hr F IH]; intros t H; cbn [map concat] in *.
  - inversion H as [|r s t' Hr H' E|]; subst; [reflexivity|]. apply app_eq_nil in E as [E _]. exfalso. exact (utf8_nonnil _ E).
  - inversion H as [E|r' s t' Hr' H' E|c s t' N H' E]; subst.
    + symmetry in E. apply app_eq_nil in E as [E _]. exfalso. exact (utf8_nonnil _ E).
    + apply utf8_prefix in E as [-> ->]; [|apply scalarb_ok; assumption..]. f_equal. apply IH. assumption.
    + exfalso. exact (N _ _ Hr E).
Qed.
Lemma repl_exact s : utf8_text s -> repl s = s.
Proof. intros H. apply replaced_exact; [exact H|apply repl_replaced]. Qed.

(** ** UTF-8 *)
Lemma utf8_text_nil : utf8_text [].
Proof. exists []. split; [constructor|reflexivity]. Qed.
Lemma utf8_text_app s t : utf8_text s -> utf8_text t -> utf8_text (s ++ t).
Proof. intros (rs & Hr & ->) (ts & Ht & ->). exists (rs ++ ts). split; [apply Forall_app_2; assumption|rewrite map_app, concat_app; reflexivity]. Qed.
Lemma utf8_text_rune r : scalar r -> utf8_text (utf8 r).
Proof. intros H. exists [r]. split; [constructor; [apply scalarb_ok, H|constructor]|cbn; rewrite app_nil_r; reflexivity]. Qed.
Lemma utf8_text_ascii s : forallb (fun c => byte c <? 128) s = true -> utf8_text s.
Proof.
  induction s as [|c s IH]; intros H; [apply utf8_text_nil|]. cbn in H. apply andb_prop in H as [Hc Hs]. apply Z.ltb_lt in Hc.
  apply (utf8_text_app [c] s); [|apply IH, Hs]. pose proof (byte_range c). replace [c] with (utf8 (byte c)) by (rewrite utf8_low by lia; rewrite bz_byte; reflexivity).
  apply utf8_text_rune. left. lia.
Qed.
Lemma utf8_text_hexn n : forall v, utf8_text (hexn n v).
Proof.
  induction n as [|n IH]; intros v; [apply utf8_text_nil|]. cbn [hexn]. apply utf8_text_app; [apply IH|]. apply utf8_text_ascii. cbn [forallb].
  rewrite andb_true_r. pose proof (Z.mod_pos_bound v 16 ltac:(lia)). rewrite hexd_byte by lia. apply Z.ltb_lt. destruct (_ <? _); lia.
Qed.
Lemma printable_utf8 table s : printable table s -> utf8_text s.
Proof. intros (rs & -> & F). exists rs. split; [|reflexivity]. eapply Forall_impl; [exact F|]. intros r [H _]. exact H. Qed.
Ltac asc := apply utf8_text_ascii; vm_compute; reflexivity.
Lemma json_rune_utf8 b r : scalar r -> utf8_text (json_rune b r (utf8 r)).
Proof.
  intros H. pose proof (utf8_text_rune r H). unfold json_rune.
  repeat (match goal with |- utf8_text (if ?c then _ else _) => destruct c end); try assumption; try asc; apply utf8_text_app; try assumption; try asc; apply utf8_text_hexn.
Qed.
Lemma json_string_utf8 b s : utf8_text (json_string b s).
Proof.
  unfold json_string. apply utf8_text_app; [asc|]. apply utf8_text_app; [|asc].
  generalize (le_n (length s)). generalize (length s) at 2 3. intros fuel. revert s.
  induction fuel as [|fuel IH]; intros s Hf; [apply utf8_text_nil|]. destruct s as [|c s]; [apply utf8_text_nil|]. cbn [json_string_go]. cbn [length] in Hf.
  destruct (decode_cases (fun _ => true) c s) as [E|(r & s' & Hr & Es & D & Nb & Hl)].
  - rewrite E. cbn [Nat.eqb rune_error Z.eqb Pos.eqb andb]. apply utf8_text_app; [asc|]. change (drop 1 (c :: s)) with s. apply IH. lia.
  - rewrite D, Nb, Es, take_app, drop_app. apply utf8_text_app; [apply json_rune_utf8, Hr|]. apply IH. lia.
Qed.

(** ** Numbers *)
Lemma is_digit_dec d : dig d -> is_digit (dec_digit d) = true /\ byte (dec_digit d) = 48 + d.
Proof.
  intros H. pose proof (dec_digit_value d H) as V. unfold digit_value in V. change (Z.of_N (N_of_ascii (dec_digit d))) with (byte (dec_digit d)) in V.
  destruct ((0 <=? byte (dec_digit d) - 48) && (byte (dec_digit d) - 48 <=? 9)) eqn:E; [|discriminate]. apply Some_inj in V.
  apply andb_prop in E as [A C]. apply Z.leb_le in A, C. split; [apply andb_true_intro; split; apply Z.leb_le; lia|lia].
Qed.
Lemma span_of_app p x y : forallb p x = true -> match y with c :: _ => p c = false | [] => True end -> span_of p (x ++ y) = (x, y).
Proof.
  intros H Hy. induction x as [|c x IH]; cbn [app].
  - destruct y as [|c y]; [reflexivity|]. cbn. rewrite Hy. reflexivity.
  - cbn in H. apply andb_prop in H as [Hc H]. cbn [span_of]. rewrite Hc, IH by exact H. reflexivity.
Qed.
Lemma dec_go_head fuel : forall u acc, 0 < u -> u < 10 ^ Z.of_nat fuel -> exists d x, dec_go fuel u acc = dec_digit d :: x /\ 1 <= d <= 9.
Proof.
  induction fuel as [|fuel IH]; intros u acc H L; [cbn in L; lia|]. cbn [dec_go]. destruct (Z.ltb_spec u 10) as [S|S].
  - exists u, acc. split; [reflexivity|lia].
  - rewrite Nat2Z.inj_succ, Z.pow_succ_r in L by lia. apply IH.
    + pose proof (Z.div_mod u 10 ltac:(lia)). pose proof (Z.mod_pos_bound u 10 ltac:(lia)). lia.
    + apply Z.div_lt_upper_bound; lia.
Qed.
Lemma digits_forall ds : Forall dig ds -> forallb is_digit (map dec_digit ds) = true.
Proof. induction 1 as [|d ds Hd _ IH]; [reflexivity|]. cbn. rewrite (proj1 (is_digit_dec d Hd)). exact IH. Qed.
Lemma dec_number_int v : 0 <= v < 10 ^ 20 -> forallb is_digit (dec v) = true /\ number_int (dec v) = true.
Proof.
  intros H. destruct (dec_digits v H) as (ds & E & Hne & Hd & Hv). rewrite E. pose proof (digits_forall ds Hd) as F. split; [exact F|].
  unfold number_int. destruct ds as [|d ds]; [contradiction|]. cbn [map] in *. unfold digits1. rewrite F. cbn [andb].
  destruct ds as [|d' ds]; [reflexivity|]. cbn [map]. apply negb_true_iff, Z.eqb_neq.
  destruct (Z.eq_dec v 0) as [->|Nz].
  - exfalso. apply (f_equal (@length ascii)) in E. vm_compute in E. discriminate.
  - destruct (dec_go_head 20 v [] ltac:(lia) ltac:(cbn; lia)) as (e & x & E' & He). unfold dec in E. destruct (Z.ltb_spec v 0); [lia|]. rewrite E' in E.
    assert (Ee : dec_digit e = dec_digit d) by congruence. rewrite <- Ee. rewrite (proj2 (is_digit_dec e ltac:(unfold dig; lia))). lia.
Qed.
Lemma digit_number c : is_digit c = true -> number_char c = true.
Proof. unfold number_char. intros ->. reflexivity. Qed.
Lemma digits_number x : forallb is_digit x = true -> forallb number_char x = true.
Proof. induction x as [|c x IH]; [reflexivity|]. cbn. intros H. apply andb_prop in H as [Hc H]. rewrite digit_number, IH; auto. Qed.
Lemma dec_number v : Z.abs v < 10 ^ 20 -> forallb number_char (dec v) = true /\ number_text (dec v) = true.
Proof.
  intros H. destruct (Z.ltb_spec v 0) as [L|L].
  - destruct (dec_number_int (- v) ltac:(lia)) as [D N]. assert (E : dec v = "-"%char :: dec (- v)).
    { unfold dec. destruct (Z.ltb_spec v 0); [|lia]. destruct (Z.ltb_spec (- v) 0); [lia|reflexivity]. }
    rewrite E. split; [cbn; rewrite digits_number by exact D; reflexivity|]. unfold number_text. change (byte "-" =? 45) with true. cbv iota.
    rewrite <- (app_nil_r (dec (- v))). rewrite span_of_app by (auto; exact I). rewrite N. reflexivity.
  - destruct (dec_number_int v ltac:(lia)) as [D N]. split; [apply digits_number, D|]. unfold number_text.
    assert (E : (match dec v with c :: s' => if byte c =? 45 then s' else dec v | [] => [] end) = dec v).
    { destruct (dec v) as [|c x]; [reflexivity|]. cbn in D. apply andb_prop in D as [D _]. unfold is_digit in D. apply andb_prop in D as [D _]. apply Z.leb_le in D.
      destruct (Z.eqb_spec (byte c) 45); [lia|reflexivity]. }
    rewrite E. rewrite <- (app_nil_r (dec v)). rewrite span_of_app by (auto; exact I). rewrite N. reflexivity.
Qed.
(** Numbers start with a digit or a minus sign and consist of number characters. *)
Lemma span_of_split p s : forall x y, span_of p s = (x, y) -> s = x ++ y /\ forallb p x = true.
Proof.
  induction s as [|c s IH]; intros x y H; cbn in H; [injection H as <- <-; auto|]. destruct (p c) eqn:Ep.
  - destruct (span_of p s) as [x' y'] eqn:E. apply pair_equal_spec in H as [<- <-]. destruct (IH _ _ eq_refl) as [-> F]. split; [reflexivity|]. cbn. rewrite Ep. exact F.
  - apply pair_equal_spec in H as [<- <-]. auto.
Qed.
Lemma number_exp_chars s : number_exp s = true -> forallb number_char s = true.
Proof.
  destruct s as [|c s]; [reflexivity|]. cbn [number_exp]. intros H. apply andb_prop in H as [Hc H]. cbn [forallb]. apply andb_true_intro. split.
  - unfold number_char. apply orb_prop in Hc as [->| ->]; rewrite ?orb_true_r; reflexivity.
  - destruct s as [|d s]; [discriminate|]. destruct ((byte d =? 43) || (byte d =? 45)) eqn:E.
    + cbn [forallb]. apply andb_true_intro. split; [unfold number_char; apply orb_prop in E as [->| ->]; rewrite ?orb_true_r; reflexivity|].
      unfold digits1 in H. destruct s; [discriminate|]. apply digits_number, H.
    + unfold digits1 in H. apply digits_number, H.
Qed.
Lemma number_frac_chars s : number_frac s = true -> forallb number_char s = true.
Proof.
  destruct s as [|c s]; [reflexivity|]. unfold number_frac. destruct (byte c =? 46) eqn:E; [|apply number_exp_chars].
  destruct (span_of is_digit s) as [f e] eqn:Es. intros H. apply andb_prop in H as [_ He]. destruct (span_of_split _ _ _ _ Es) as [-> F].
  cbn [forallb]. apply andb_true_intro. split; [unfold number_char; rewrite E, ?orb_true_r; reflexivity|]. rewrite forallb_app, (digits_number f F), (number_exp_chars e He). reflexivity.
Qed.
Lemma number_text_chars s : number_text s = true -> forallb number_char s = true /\ exists c x, s = c :: x /\ (is_digit c = true \/ byte c = 45).
Proof.
  unfold number_text. destruct s as [|c s]; [discriminate|]. destruct (byte c =? 45) eqn:E.
  - destruct (span_of is_digit s) as [i r] eqn:Es. intros H. apply andb_prop in H as [_ Hf]. destruct (span_of_split _ _ _ _ Es) as [-> F]. split.
    + cbn [forallb]. rewrite forallb_app, (digits_number i F), (number_frac_chars r Hf). unfold number_char. rewrite E, ?orb_true_r. reflexivity.
    + exists c, (i ++ r). split; [reflexivity|]. right. apply Z.eqb_eq, E.
  - destruct (span_of is_digit (c :: s)) as [i r] eqn:Es. intros H. apply andb_prop in H as [Hi Hf]. destruct (span_of_split _ _ _ _ Es) as [Eq F]. rewrite Eq. split.
    + rewrite forallb_app, (digits_number i F), (number_frac_chars r Hf). reflexivity.
    + rewrite <- Eq. exists c, s. split; [reflexivity|]. left. unfold number_int, digits1 in Hi. destruct i as [|d i]; [discriminate|]. assert (c = d) as -> by (cbn in Eq; congruence).
      cbn in F. apply andb_prop in F as [F _]. exact F.
Qed.
