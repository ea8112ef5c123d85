(** Numbers and durations in the SVG text. *)
From Verif Require Import Base BaseProofs PresentModel LayoutModel SvgModel SvgSpec SvgProofs.
Local Open Scope Z_scope.
Local Arguments B : simpl never.

(** ** Decimal numbers *)
Definition dig (d : Z) : Prop := 0 <= d <= 9.
Definition value (a : Z) (ds : list Z) : Z := fold_left (fun a d => 10 * a + d) ds a.
Lemma value_app a ds es : value a (ds ++ es) = value (value a ds) es.
Proof. apply fold_left_app. Qed.
Lemma value_shift ds : forall a, value a ds = a * 10 ^ Z.of_nat (length ds) + value 0 ds.
Proof.
  induction ds as [|d ds IH]; intros a; [cbn; lia|]. cbn [value fold_left length]. fold (value (10 * a + d) ds) (value (10 * 0 + d) ds).
  rewrite (IH (10 * a + d)), (IH (10 * 0 + d)). rewrite Nat2Z.inj_succ, Z.pow_succ_r by lia. lia.
Qed.
Lemma dec_digit_value d : dig d -> digit_value (dec_digit d) = Some d.
Proof.
  unfold dig. intros H. assert (d ∈ [0; 1; 2; 3; 4; 5; 6; 7; 8; 9]) as Hd by (apply elem_of_list_In; cbn; lia). clear H. revert d Hd.
  apply (Forall_forall (fun d => digit_value (dec_digit d) = Some d)). repeat constructor.
Qed.
Lemma dec_go_digits fuel : forall u acc, (0 < fuel)%nat -> 0 <= u < 10 ^ Z.of_nat fuel ->
  exists ds, dec_go fuel u acc = map dec_digit ds ++ acc /\ ds <> [] /\ Forall dig ds /\ value 0 ds = u.
Proof.
  induction fuel as [|fuel IH]; intros u acc Hf Hu; [lia|]. cbn [dec_go]. destruct (Z.ltb_spec u 10).
  - exists [u]. split; [reflexivity|]. split; [discriminate|]. split; [repeat constructor; lia|cbn; lia].
  - rewrite Nat2Z.inj_succ, Z.pow_succ_r in Hu by lia.
    assert (Hf' : (0 < fuel)%nat) by (destruct fuel; [cbn in Hu; lia|lia]).
    destruct (IH (u / 10) (dec_digit (u mod 10) :: acc) Hf') as (ds & E & Hne & Hd & Hv).
    { split; [apply Z.div_pos; lia|]. apply Z.div_lt_upper_bound; lia. }
    exists (ds ++ [u mod 10]). rewrite E, map_app, <- app_assoc. split; [reflexivity|]. split; [destruct ds; discriminate|].
    pose proof (Z.mod_pos_bound u 10 ltac:(lia)). pose proof (Z.div_mod u 10 ltac:(lia)).
    split; [apply Forall_app; split; [exact Hd|repeat constructor; lia]|]. rewrite value_app, Hv. cbn. lia.
Qed.
Lemma dec_digits v : 0 <= v < 10 ^ 20 -> exists ds, dec v = map dec_digit ds /\ ds <> [] /\ Forall dig ds /\ value 0 ds = v.
Proof.
  intros H. destruct (dec_go_digits 20 v [] ltac:(lia) H) as (ds & E & Hr). exists ds. rewrite app_nil_r in E. split; [|exact Hr].
  unfold dec. destruct (Z.ltb_spec v 0); [lia|]. exact E.
Qed.
Lemma digits_value_run ds : forall a, Forall dig ds -> digits_value a (map dec_digit ds) = Some (value a ds).
Proof.
  induction ds as [|d ds IH]; intros a H; [reflexivity|]. inversion H; subst. cbn [map digits_value]. rewrite dec_digit_value by assumption. apply IH. assumption.
Qed.
Lemma dec_digit_minus d : dig d -> Ascii.eqb (dec_digit d) "-" = false.
Proof. intros H. destruct (Ascii.eqb_spec (dec_digit d) "-") as [E|]; [|reflexivity]. pose proof (dec_digit_value d H) as V. rewrite E in V. discriminate. Qed.
Lemma dec_read v : Z.abs v < 10 ^ 20 -> read_dec (dec v) = Some v.
Proof.
  intros H. destruct (Z.ltb_spec v 0) as [L|L].
  - destruct (dec_digits (- v) ltac:(lia)) as (ds & E & Hne & Hd & Hv). unfold dec in *. destruct (Z.ltb_spec (- v) 0); [lia|].
    destruct (Z.ltb_spec v 0); [|lia]. rewrite E. cbn [read_dec]. change (Ascii.eqb "-" "-") with true. cbv iota.
    destruct ds as [|d ds]; [contradiction|]. change (map dec_digit (d :: ds)) with (dec_digit d :: map dec_digit ds) at 1. cbv iota.
    rewrite digits_value_run by exact Hd. rewrite Hv. cbn [option_map]. f_equal. lia.
  - destruct (dec_digits v ltac:(lia)) as (ds & E & Hne & Hd & Hv). rewrite E. destruct ds as [|d ds]; [contradiction|].
    change (map dec_digit (d :: ds)) with (dec_digit d :: map dec_digit ds) at 1. cbn [read_dec]. inversion Hd; subst.
    rewrite dec_digit_minus by assumption. change (dec_digit d :: map dec_digit ds) with (map dec_digit (d :: ds)).
    rewrite digits_value_run by exact Hd. reflexivity.
Qed.

(** ** Fractions *)
Lemma mod_split v n : v mod 10 ^ Z.of_nat (S n) = 10 * ((v / 10) mod 10 ^ Z.of_nat n) + v mod 10.
Proof. rewrite Nat2Z.inj_succ, Z.pow_succ_r by lia. rewrite Z.rem_mul_r; [lia|lia|]. apply Z.pow_pos_nonneg; lia. Qed.
Lemma div_split v n : v / 10 ^ Z.of_nat (S n) = v / 10 / 10 ^ Z.of_nat n.
Proof. rewrite Nat2Z.inj_succ, Z.pow_succ_r by lia. rewrite Z.div_div; [reflexivity|lia|apply Z.pow_pos_nonneg; lia]. Qed.
Lemma frac_true n : forall v acc, exists ds,
  frac_go n v true (map dec_digit acc) = ("."%char :: map dec_digit (ds ++ acc), v / 10 ^ Z.of_nat n) /\ length ds = n /\ Forall dig ds /\ value 0 ds = v mod 10 ^ Z.of_nat n.
Proof.
  induction n as [|n IH]; intros v acc.
  - exists []. cbn [frac_go]. change (10 ^ Z.of_nat 0) with 1. rewrite Z.div_1_r, Z.mod_1_r. repeat split. constructor.
  - cbn [frac_go orb]. destruct (IH (v / 10) (v mod 10 :: acc)) as (ds & E & Hl & Hd & Hv). cbn [map] in E. rewrite E.
    exists (ds ++ [v mod 10]). pose proof (Z.mod_pos_bound v 10 ltac:(lia)). rewrite <- app_assoc, app_length, Hl, value_app, Hv, mod_split, div_split.
    split; [reflexivity|]. split; [cbn; lia|]. split; [apply Forall_app; split; [exact Hd|repeat constructor; lia]|]. cbn. lia.
Qed.
Definition frac_text (ds : list Z) : bytes := match ds with [] => [] | _ => "."%char :: map dec_digit ds end.
Lemma frac_false n : forall v, exists ds,
  frac_go n v false [] = (frac_text ds, v / 10 ^ Z.of_nat n) /\ (length ds <= n)%nat /\ Forall dig ds /\
  value 0 ds * 10 ^ (Z.of_nat n - Z.of_nat (length ds)) = v mod 10 ^ Z.of_nat n.
Proof.
  induction n as [|n IH]; intros v.
  - exists []. cbn [frac_go]. change (10 ^ Z.of_nat 0) with 1. rewrite Z.div_1_r, Z.mod_1_r. repeat split; [cbn; lia|constructor].
  - cbn [frac_go orb]. pose proof (Z.mod_pos_bound v 10 ltac:(lia)). destruct (Z.eqb_spec (v mod 10) 0) as [E0|E0]; cbn [negb].
    + destruct (IH (v / 10)) as (ds & E & Hl & Hd & Hv). rewrite E. exists ds. rewrite mod_split, div_split, <- Hv, E0. split; [reflexivity|]. split; [lia|]. split; [exact Hd|].
      replace (Z.of_nat (S n) - Z.of_nat (length ds)) with (Z.succ (Z.of_nat n - Z.of_nat (length ds))) by lia. rewrite Z.pow_succ_r by lia. lia.
    + destruct (frac_true n (v / 10) [v mod 10]) as (ds & E & Hl & Hd & Hv). cbn [map] in E. rewrite E. exists (ds ++ [v mod 10]).
      rewrite mod_split, div_split, <- Hv. rewrite app_length, Hl, value_app. split; [|split; [cbn; lia|split; [apply Forall_app; split; [exact Hd|repeat constructor; lia]|]]].
      * unfold frac_text. destruct ds; reflexivity.
      * replace (Z.of_nat (S n) - Z.of_nat (n + length [v mod 10])) with 0 by (cbn [length]; lia). cbn. lia.
Qed.

(** ** Reading durations *)
Lemma parts_digits ds : forall sum n k rest, Forall dig ds ->
  duration_parts sum n k [] (map dec_digit ds ++ rest) = duration_parts sum (value n ds) (option_map (Z.mul (10 ^ Z.of_nat (length ds))) k) [] rest.
Proof.
  induction ds as [|d ds IH]; intros sum n k rest H.
  - cbn [map app value fold_left length]. f_equal. destruct k; [|reflexivity]. cbn [option_map]. f_equal. change (10 ^ Z.of_nat 0) with 1. lia.
  - inversion H; subst. cbn [map app duration_parts]. rewrite dec_digit_value by assumption. cbv iota. rewrite IH by assumption. cbn [value fold_left]. fold (value (10 * n + d) ds). f_equal.
    destruct k; [|reflexivity]. cbn [option_map length]. f_equal. rewrite Nat2Z.inj_succ, Z.pow_succ_r by lia. lia.
Qed.
Lemma parts_next sum n k u v d ds rest : u <> [] -> dig d -> part_value n (default 1 k) u = Some v ->
  duration_parts sum n k u (map dec_digit (d :: ds) ++ rest) = duration_parts (sum + v) 0 None [] (map dec_digit (d :: ds) ++ rest).
Proof.
  intros Hu Hd Hv. cbn [map app duration_parts]. rewrite dec_digit_value by assumption. destruct u; [contradiction|]. cbn [default] in *. rewrite Hv. reflexivity.
Qed.
(** A number with a fraction before the last unit. *)
Lemma parts_frac sum x ds n m unit :
  0 <= x < 10 ^ 20 -> (length ds <= n)%nat -> Forall dig ds ->
  (forall sum n k, duration_parts sum n k [] unit = option_map (Z.add sum) (part_value n (default 1 k) unit)) ->
  unit_value unit = Some (10 ^ Z.of_nat n) ->
  value 0 ds * 10 ^ (Z.of_nat n - Z.of_nat (length ds)) = m ->
  duration_parts sum 0 None [] (dec x ++ frac_text ds ++ unit) = Some (sum + (x * 10 ^ Z.of_nat n + m)).
Proof.
  intros Hx Hl Hd Hu Hv Hm. destruct (dec_digits x Hx) as (xs & E & _ & Hxs & Hxv). rewrite E, parts_digits by exact Hxs. rewrite Hxv. cbn [option_map].
  set (l := Z.of_nat (length ds)) in *.
  assert (Hp : 10 ^ Z.of_nat n = 10 ^ l * 10 ^ (Z.of_nat n - l)) by (rewrite <- Z.pow_add_r by lia; f_equal; lia).
  assert (Hl0 : 0 < 10 ^ l) by (apply Z.pow_pos_nonneg; lia).
  assert (Hpart : part_value (value x ds) (10 ^ l) unit = Some (x * 10 ^ Z.of_nat n + m)).
  { unfold part_value. rewrite Hv, Hp, value_shift. fold l.
    replace ((x * 10 ^ l + value 0 ds) * (10 ^ l * 10 ^ (Z.of_nat n - l))) with ((x * (10 ^ l * 10 ^ (Z.of_nat n - l)) + value 0 ds * 10 ^ (Z.of_nat n - l)) * 10 ^ l) by ring.
    rewrite Z.mod_mul, Z.div_mul by lia. rewrite Hm. reflexivity. }
  destruct ds as [|d ds].
  - cbn [frac_text app]. rewrite Hu. cbn [default length] in *. change (10 ^ l) with 1 in Hpart. cbn [value fold_left] in Hpart. rewrite Hpart. reflexivity.
  - unfold frac_text. change (("."%char :: map dec_digit (d :: ds)) ++ unit) with ("."%char :: (map dec_digit (d :: ds) ++ unit)).
    cbn [duration_parts]. change (digit_value ".") with (@None Z). cbv iota. change (Ascii.eqb "." ".") with true. cbv iota.
    rewrite parts_digits by exact Hd. rewrite Hu. cbn [option_map default from_option]. unfold id. fold l. rewrite Z.mul_1_r, Hpart. reflexivity.
Qed.
Lemma parts_unit sum x u m rest : 0 <= x < 10 ^ 20 -> u <> [] ->
  (forall sum n k, duration_parts sum n k [] (u ++ rest) = duration_parts sum n k u rest) -> unit_value u = Some m ->
  (exists d ds, dig d /\ exists rest', rest = map dec_digit (d :: ds) ++ rest') ->
  duration_parts sum 0 None [] (dec x ++ u ++ rest) = duration_parts (sum + x * m) 0 None [] rest.
Proof.
  intros Hx Hu Hr Hv (d & ds & Hd & rest' & E). destruct (dec_digits x Hx) as (xs & Ex & _ & Hxs & Hxv). rewrite Ex, parts_digits by exact Hxs.
  rewrite Hxv, Hr, E. cbn [option_map]. apply parts_next; [exact Hu|exact Hd|]. cbn [default]. unfold part_value. rewrite Hv, Z.mod_1_r, Z.div_1_r. reflexivity.
Qed.
Lemma dec_starts x rest : 0 <= x < 10 ^ 20 -> exists d ds, dig d /\ exists rest', dec x ++ rest = map dec_digit (d :: ds) ++ rest'.
Proof.
  intros H. destruct (dec_digits x H) as (xs & E & Hne & Hd & _). destruct xs as [|d ds]; [contradiction|]. inversion Hd; subst.
  exists d, ds. split; [assumption|]. exists rest. rewrite E. reflexivity.
Qed.
Definition abs_text (u : Z) : bytes :=
  if u <? 1000000000 then
    if u =? 0 then B "0s"
    else
      let '(prec, suffix) :=
        if u <? 1000 then (0%nat, B "ns")
        else if u <? 1000000 then (3%nat, [ascii_of_N 194; ascii_of_N 181] ++ B "s")
        else (6%nat, B "ms") in
      let (f, v) := frac_go prec u false [] in dec v ++ f ++ suffix
  else
    let (f, secs) := frac_go 9 u false [] in
    let mins := secs / 60 in
    let hours := mins / 60 in
    (if 0 <? mins then (if 0 <? hours then dec hours ++ B "h" else []) ++ dec (mins mod 60) ++ B "m" else []) ++ dec (secs mod 60) ++ f ++ B "s".
Lemma duration_abs d : duration_text d = if d <? 0 then B "-" ++ abs_text (Z.abs d) else abs_text (Z.abs d).
Proof. reflexivity. Qed.
Lemma abs_read u : 0 <= u <= 2 ^ 63 -> duration_parts 0 0 None [] (abs_text u) = Some u.
Proof.
  intros H. unfold abs_text. destruct (Z.ltb_spec u 1000000000).
  - destruct (Z.eqb_spec u 0) as [->|Hu0]; [vm_compute; reflexivity|].
    assert (G : forall prec suffix, (forall sum n k, duration_parts sum n k [] suffix = option_map (Z.add sum) (part_value n (default 1 k) suffix)) ->
       unit_value suffix = Some (10 ^ Z.of_nat prec) ->
       duration_parts 0 0 None [] (let (f, v) := frac_go prec u false [] in dec v ++ f ++ suffix) = Some u).
    { intros prec suffix Hs Hv. destruct (frac_false prec u) as (ds & E & Hl & Hd & Hf). rewrite E.
      assert (Hp : 0 < 10 ^ Z.of_nat prec) by (apply Z.pow_pos_nonneg; lia).
      rewrite (parts_frac 0 _ ds prec (u mod 10 ^ Z.of_nat prec) suffix); [|split; [apply Z.div_pos; lia|]|assumption..].
      - f_equal. pose proof (Z.div_mod u (10 ^ Z.of_nat prec)). lia.
      - apply Z.le_lt_trans with u; [|lia]. apply Z.div_le_upper_bound; [lia|]. nia. }
    destruct (Z.ltb_spec u 1000); [apply G; [reflexivity|vm_compute; reflexivity]|].
    destruct (Z.ltb_spec u 1000000); apply G; try reflexivity; vm_compute; reflexivity.
  - destruct (frac_false 9 u) as (ds & E & Hl & Hd & Hf). rewrite E. clear E. cbv zeta. change (10 ^ Z.of_nat 9) with 1000000000 in *.
    set (secs := u / 1000000000) in *. set (m := u mod 1000000000) in *.
    assert (Hu : u = 1000000000 * secs + m) by (apply Z.div_mod; lia).
    assert (Hm : 0 <= m < 1000000000) by (apply Z.mod_pos_bound; lia). clearbody secs m.
    set (mins := secs / 60). assert (Hs : secs = 60 * mins + secs mod 60) by (apply Z.div_mod; lia).
    assert (Hs' : 0 <= secs mod 60 < 60) by (apply Z.mod_pos_bound; lia). set (s60 := secs mod 60) in *. clearbody mins s60.
    set (hours := mins / 60). assert (Hh : mins = 60 * hours + mins mod 60) by (apply Z.div_mod; lia).
    assert (Hh' : 0 <= mins mod 60 < 60) by (apply Z.mod_pos_bound; lia). set (m60 := mins mod 60) in *. clearbody hours m60.
    assert (Tail : forall sum, duration_parts sum 0 None [] (dec s60 ++ frac_text ds ++ B "s") = Some (sum + (s60 * 1000000000 + m))).
    { intros sum. apply (parts_frac sum s60 ds 9 m (B "s")); try assumption; [lia|reflexivity|vm_compute; reflexivity]. }
    assert (Mins : forall sum, duration_parts sum 0 None [] ((dec m60 ++ B "m") ++ dec s60 ++ frac_text ds ++ B "s") = Some (sum + m60 * 60000000000 + (s60 * 1000000000 + m))).
    { intros sum. rewrite <- app_assoc. rewrite (parts_unit sum m60 (B "m") 60000000000); [apply Tail|lia|discriminate|reflexivity|vm_compute; reflexivity|]. apply dec_starts. lia. }
    destruct (Z.ltb_spec 0 mins); [destruct (Z.ltb_spec 0 hours)|].
    + rewrite <- !app_assoc. rewrite (parts_unit 0 hours (B "h") 3600000000000); [|lia|discriminate|reflexivity|vm_compute; reflexivity|apply dec_starts; lia].
      rewrite (app_assoc (dec m60)). rewrite Mins. f_equal. lia.
    + cbn [app]. rewrite Mins. f_equal. lia.
    + cbn [app]. rewrite Tail. f_equal. lia.
Qed.
Lemma abs_starts u : 0 <= u <= 2 ^ 63 -> exists c s, abs_text u = c :: s /\ Ascii.eqb c "-" = false.
Proof.
  intros H. assert (G : forall x rest, 0 <= x < 10 ^ 20 -> exists c s, dec x ++ rest = c :: s /\ Ascii.eqb c "-" = false).
  { intros x rest Hx. destruct (dec_starts x rest Hx) as (d & ds & Hd & rest' & E). rewrite E. cbn [map app]. eexists _, _. split; [reflexivity|]. apply dec_digit_minus, Hd. }
  unfold abs_text. destruct (Z.ltb_spec u 1000000000).
  - destruct (u =? 0); [eexists _, _; split; vm_compute; reflexivity|].
    assert (P : forall prec suffix, exists c s, (let (f, v) := frac_go prec u false [] in dec v ++ f ++ suffix) = c :: s /\ Ascii.eqb c "-" = false).
    { intros prec suffix. destruct (frac_false prec u) as (ds & E & _). rewrite E. apply G.
      assert (Hp : 0 < 10 ^ Z.of_nat prec) by (apply Z.pow_pos_nonneg; lia).
      split; [apply Z.div_pos; lia|]. apply Z.le_lt_trans with u; [|lia]. apply Z.div_le_upper_bound; [lia|]. nia. }
    destruct (u <? 1000); [apply P|]. destruct (u <? 1000000); apply P.
  - destruct (frac_false 9 u) as (ds & E & _). rewrite E. clear E. cbv zeta. change (10 ^ Z.of_nat 9) with 1000000000.
    set (secs := u / 1000000000). assert (0 <= secs <= 2 ^ 63).
    { subst secs. split; [apply Z.div_pos; lia|]. apply Z.div_le_upper_bound; lia. }
    clearbody secs. set (mins := secs / 60). assert (0 <= mins <= 2 ^ 63).
    { subst mins. split; [apply Z.div_pos; lia|]. apply Z.div_le_upper_bound; lia. }
    clearbody mins. set (hours := mins / 60). assert (0 <= hours <= 2 ^ 63).
    { subst hours. split; [apply Z.div_pos; lia|]. apply Z.div_le_upper_bound; lia. }
    pose proof (Z.mod_pos_bound secs 60 ltac:(lia)). pose proof (Z.mod_pos_bound mins 60 ltac:(lia)).
    destruct (0 <? mins); [destruct (0 <? hours)|]; rewrite <- ?app_assoc; cbn [app]; apply G; lia.
Qed.
Lemma duration_read d : - 2 ^ 63 <= d <= 2 ^ 63 - 1 -> read_duration (duration_text d) = Some d.
Proof.
  intros H. rewrite duration_abs. pose proof (abs_read (Z.abs d) ltac:(lia)) as R. destruct (abs_starts (Z.abs d) ltac:(lia)) as (c & s & E & Ec).
  destruct (Z.ltb_spec d 0).
  - change (read_duration (B "-" ++ abs_text (Z.abs d))) with (option_map Z.opp (duration_parts 0 0 None [] (abs_text (Z.abs d)))). rewrite R. cbn [option_map]. f_equal. lia.
  - rewrite E in R |- *. cbn [read_duration]. rewrite Ec, R. f_equal. lia.
Qed.

(** ** Text that neither XML nor JavaScript takes for anything else *)
Definition js_byte (c : ascii) : Prop := byte c ∉ [10; 13; 39; 92].
Definition inert (s : bytes) : Prop := xml_text s /\ Forall plain_byte s /\ Forall js_byte s.
Lemma xml_text_app s t : xml_text s -> xml_text t -> xml_text (s ++ t).
Proof. intros (rs & H & ->) (rs' & H' & ->). exists (rs ++ rs'). split; [apply Forall_app; auto|]. rewrite map_app, concat_app. reflexivity. Qed.
Lemma xml_text_nil : xml_text [].
Proof. exists []. split; [constructor|reflexivity]. Qed.
Lemma inert_app s t : inert s -> inert t -> inert (s ++ t).
Proof. intros (? & ? & ?) (? & ? & ?). split; [apply xml_text_app; assumption|]. split; apply Forall_app; auto. Qed.
Lemma inert_nil : inert [].
Proof. split; [apply xml_text_nil|]. split; constructor. Qed.
(** ASCII text is XML text. *)
Definition ascii_ok (c : ascii) : bool := (byte c <? 128) && xml_char (byte c).
Lemma ascii_text s : forallb ascii_ok s = true -> xml_text s.
Proof.
  intros H. exists (map byte s). split.
  - apply Forall_map, Forall_forall. intros c Hc. rewrite forallb_forall in H. apply elem_of_list_In in Hc. specialize (H c Hc). unfold ascii_ok in H.
    apply andb_prop in H as [_ H]. apply xml_char_code, H.
  - induction s as [|c s IH]; [reflexivity|]. cbn [forallb] in H. apply andb_prop in H as [H1 H2]. cbn [map concat]. rewrite <- IH by exact H2.
    unfold ascii_ok in H1. apply andb_prop in H1 as [H1 _]. unfold utf8. rewrite H1. fold (bz (byte c)). rewrite bz_byte. reflexivity.
Qed.
Definition inert_ok (c : ascii) : bool := ascii_ok c && bool_decide (byte c ∉ [9; 10; 13; 34; 38; 60; 62]) && bool_decide (byte c ∉ [10; 13; 39; 92]).
Lemma inert_ascii s : forallb inert_ok s = true -> inert s.
Proof.
  intros H. rewrite forallb_forall in H. split; [apply ascii_text, forallb_forall|split; apply Forall_forall]; intros c Hc; [|apply elem_of_list_In in Hc..]; specialize (H c Hc);
    unfold inert_ok in H; apply andb_prop in H as [H H3]; apply andb_prop in H as [H1 H2]; [exact H1|exact (bool_decide_eq_true_1 _ H2)|exact (bool_decide_eq_true_1 _ H3)].
Qed.
Lemma dec_digit_inert d : inert_ok (dec_digit d) = true.
Proof.
  unfold dec_digit. destruct (le_lt_dec 10 (Z.to_nat d)) as [H|H].
  - rewrite nth_overflow by (change (length (B "0123456789")) with 10%nat; exact H). vm_compute. reflexivity.
  - assert (A : forallb (fun n => inert_ok (List.nth n (B "0123456789") "0"%char)) (seq 0 10) = true) by (vm_compute; reflexivity).
    rewrite forallb_forall in A. apply A. apply elem_of_list_In, elem_of_seq. lia.
Qed.
Lemma dec_go_inert fuel : forall u acc, forallb inert_ok acc = true -> forallb inert_ok (dec_go fuel u acc) = true.
Proof.
  induction fuel as [|fuel IH]; intros u acc H; [exact H|]. cbn [dec_go].
  destruct (u <? 10); [|apply IH]; cbn [forallb]; rewrite dec_digit_inert; exact H.
Qed.
Lemma dec_inert v : inert (dec v).
Proof.
  apply inert_ascii. unfold dec. destruct (v <? 0); [|apply dec_go_inert; reflexivity].
  cbn [forallb]. apply andb_true_intro. split; [vm_compute; reflexivity|apply dec_go_inert; reflexivity].
Qed.
Lemma frac_go_inert n : forall v p acc, forallb inert_ok acc = true -> forallb inert_ok (fst (frac_go n v p acc)) = true.
Proof.
  induction n as [|n IH]; intros v p acc H; cbn [frac_go].
  - destruct p; [|exact H]. cbn [fst forallb]. apply andb_true_intro. split; [vm_compute; reflexivity|exact H].
  - apply IH. destruct (p || negb (v mod 10 =? 0)); [|exact H]. cbn [forallb]. rewrite dec_digit_inert. exact H.
Qed.
Lemma micro_inert : inert [ascii_of_N 194; ascii_of_N 181].
Proof.
  split; [exists [181]; split; [repeat constructor; unfold xml_code; lia|vm_compute; reflexivity]|].
  split; repeat constructor; apply (bool_decide_unpack _); vm_compute; exact I.
Qed.
Ltac inert_lit := apply inert_ascii; vm_compute; reflexivity.
Lemma abs_inert u : inert (abs_text u).
Proof.
  unfold abs_text. destruct (u <? 1000000000).
  - destruct (u =? 0); [inert_lit|].
    assert (G : forall prec suffix, inert suffix -> inert (let (f, v) := frac_go prec u false [] in dec v ++ f ++ suffix)).
    { intros prec suffix Hs. pose proof (frac_go_inert prec u false [] eq_refl) as F. destruct (frac_go prec u false []) as [f v].
      apply inert_app; [apply dec_inert|]. apply inert_app; [apply inert_ascii, F|exact Hs]. }
    destruct (u <? 1000); [apply G; inert_lit|]. destruct (u <? 1000000); apply G; [|inert_lit]. apply inert_app; [apply micro_inert|inert_lit].
  - pose proof (frac_go_inert 9 u false [] eq_refl) as F. destruct (frac_go 9 u false []) as [f secs]. cbn [fst] in F.
    repeat first [apply inert_app | apply dec_inert | apply inert_ascii, F | match goal with |- inert (if ?b then _ else _) => destruct b end | apply inert_nil | inert_lit].
Qed.
Lemma duration_inert d : inert (duration_text d).
Proof. rewrite duration_abs. destruct (d <? 0); [apply inert_app; [inert_lit|]|]; apply abs_inert. Qed.
