(** Shortest digits: no number with fewer digits is rounded to the same float64 (C86); the
    texts of StatsJSON and StatsText. *)
From Verif Require Import Base BaseProofs SeriesModel SeriesProofs PresentModel SvgModel SvgSpec SvgProofs SvgNumProofs JsonModel JsonSpec JsonProofs FloatTextModel FloatTextSpec FloatTextProofs FloatTextProofs2.
Local Open Scope Z_scope.
Local Arguments B : simpl never.
Local Arguments Z.pow : simpl never.
Local Arguments Z.mul : simpl never.
Local Opaque Z.pow.

Lemma above_parts m j : float_parts m j -> exists m' j', float_parts m' j' /\ (m', j') <> (m, j) /\ mag m' j' = mag m j + 2 ^ j.
Proof.
  intros (Hm & Hj & Hc). destruct (Z.eq_dec (m + 1) (2 ^ 53)) as [E|N].
  - exists (2 ^ 52), (j + 1). split; [|split].
    + split; [split; [apply Z.lt_le_incl, pow52_pos|reflexivity]|]. split; [lia|right; lia].
    + intros [= _ ?]. lia.
    + unfold mag. rewrite two_split by lia. change (2 ^ 1) with 2. replace (m * 2 ^ j + 2 ^ j) with ((m + 1) * 2 ^ j) by ring. rewrite E, pow53. ring.
  - exists (m + 1), j. split; [|split].
    + split; [lia|]. split; [lia|]. destruct Hc; [left; assumption|right; lia].
    + intros [= ?]. lia.
    + unfold mag. ring.
Qed.
Lemma below_parts m j : float_parts m j -> 0 < m -> exists m' j', float_parts m' j' /\ (m', j') <> (m, j) /\ mag m' j' = mag m j - gap_below m j.
Proof.
  intros (Hm & Hj & Hc) H0. unfold gap_below. destruct ((m =? 2 ^ 52) && (0 <? j)) eqn:E.
  - apply andb_prop in E as [E1 E2]. apply Z.eqb_eq in E1. apply Z.ltb_lt in E2. exists (2 ^ 53 - 1), (j - 1). split; [|split].
    + split; [split; [|lia]; apply (Z.leb_le 0); reflexivity|]. split; [lia|]. right. apply Z.leb_le. reflexivity.
    + intros [= _ ?]. lia.
    + unfold mag. subst m. replace j with (1 + (j - 1)) at 2 by lia. rewrite two_split by lia. change (2 ^ 1) with 2. rewrite pow53. ring.
  - exists (m - 1), j. split; [|split].
    + split; [lia|]. split; [lia|]. destruct Hc as [|Hc]; [left; assumption|]. destruct (Z.eq_dec j 0); [left; assumption|right].
      apply andb_false_iff in E as [E|E]; [apply Z.eqb_neq in E; lia|apply Z.ltb_ge in E; lia].
    + intros [= ?]. lia.
    + unfold mag. ring.
Qed.
Lemma rounds_interval d e m j : rounds_to d e m j -> 0 < m ->
  let a := d * 10 ^ Z.max e 0 * unit64 in
  let b := 10 ^ Z.max (- e) 0 in
  (2 * mag m j - gap_below m j) * b <= 2 * a <= (2 * mag m j + 2 ^ j) * b /\
  (Z.even m = false -> (2 * mag m j - gap_below m j) * b < 2 * a < (2 * mag m j + 2 ^ j) * b).
Proof.
  intros [Hf H] H0. cbv zeta.
  destruct (above_parts m j Hf) as (m1 & j1 & F1 & N1 & M1). destruct (below_parts m j Hf H0) as (m2 & j2 & F2 & N2 & M2).
  pose proof (H m1 j1 F1 N1) as D1. pose proof (H m2 j2 F2 N2) as D2. unfold distance in D1, D2. fold unit64 in D1, D2.
  fold (mag m j) (mag m1 j1) in D1. fold (mag m j) (mag m2 j2) in D2. rewrite M1 in D1. rewrite M2 in D2.
  pose proof (gap_pos m j Hf) as G. pose proof (ten_pos (Z.max (- e) 0) ltac:(lia)) as PB.
  set (a := d * 10 ^ Z.max e 0 * unit64) in *. set (b := 10 ^ Z.max (- e) 0) in *. set (x := mag m j) in *. set (g := gap_below m j) in *. set (h := 2 ^ j) in *. clearbody a b x g h.
  assert (GP : 0 < g * b <= h * b) by nia. split; [lia|]. intros E. rewrite E in *. lia.
Qed.
Lemma shortest_digits m j d' e' n : float_parts m j -> j <= 2045 -> 0 < m -> 0 <= n -> rounds_to d' e' m j -> 0 <= d' < 10 ^ n -> fst (shortest m j) < 10 ^ n.
Proof.
  intros Hf Hu H0 Hn Hr Hd. pose proof (shortest_spec m j Hf Hu H0) as S. destruct (shortest m j) as [d e]. cbn [fst].
  destruct S as (i & Hi & Hb & _ & _ & Hno). destruct (Z.lt_ge_cases d (10 ^ n)) as [L|L]; [exact L|exfalso].
  assert (Ni : n < i). { destruct (Z.lt_ge_cases n i) as [?|G]; [assumption|]. pose proof (Z.pow_le_mono_r 10 i n ltac:(lia) G). lia. }
  pose proof (rounds_interval d' e' m j Hr H0) as [I1 I2]. cbv zeta in I1, I2.
  pose proof (gap_pos m j Hf) as G. pose proof (ten_pos (Z.max (- e') 0) ltac:(lia)) as PB. pose proof (ten_pos places ltac:(unfold places; lia)) as PP.
  assert (Xp : 2 ^ j <= mag m j). { unfold mag. destruct Hf as (_ & Hj & _). pose proof (two_pos j Hj). nia. }
  destruct (Z.eq_dec n 0) as [->|Nz].
  { replace d' with 0 in I1 by (change (10 ^ 0) with 1 in Hd; lia). replace (0 * 10 ^ Z.max e' 0 * unit64) with 0 in I1 by ring.
    set (b := 10 ^ Z.max (- e') 0) in *. set (x := mag m j) in *. set (g := gap_below m j) in *. set (h := 2 ^ j) in *. clearbody b x g h. nia. }
  destruct (Hno n ltac:(lia)) as [N1 N2]. pose proof (dexp_spec m j Hf Hu H0) as [_ K].
  pose proof (down_spec m j Hf Hu H0 n ltac:(lia)) as Dn. pose proof (down_bound m j Hf Hu H0 n ltac:(lia)) as Db. pose proof (step_le m j Hf Hu H0 n ltac:(lia)) as Sl.
  pose proof (step_pos m j Hf Hu H0 n ltac:(lia)) as Sp.
  set (a := d' * 10 ^ Z.max e' 0 * unit64) in *. set (b := 10 ^ Z.max (- e') 0) in *.
  set (s := unit64 * 10 ^ (dexp m j - n + places)) in *. set (t := mag m j * 10 ^ places / s) in *.
  (* the exponent is large: a multiple of the step *)
  assert (Big : dexp m j - n <= e' -> exists q, a * 10 ^ places = q * s * b).
  { intros Le. exists (d' * 10 ^ (e' - (dexp m j - n))). unfold a, s, b.
    assert (E : 10 ^ Z.max e' 0 * 10 ^ places = 10 ^ (e' - (dexp m j - n)) * 10 ^ (dexp m j - n + places) * 10 ^ Z.max (- e') 0).
    { rewrite <- !ten_split by (unfold places; lia). f_equal. lia. }
    transitivity (d' * unit64 * (10 ^ Z.max e' 0 * 10 ^ places)); [ring|]. rewrite E. ring. }
  (* it is small: below the first digit *)
  assert (Small : e' < dexp m j - n -> a * 10 ^ places < 10 ^ (n - 1) * s * b).
  { intros Lt. unfold a, s, b.
    assert (E : 10 ^ n * (10 ^ Z.max e' 0 * 10 ^ places) <= 10 ^ (n - 1) * 10 ^ (dexp m j - n + places) * 10 ^ Z.max (- e') 0).
    { rewrite <- !ten_split by (unfold places; lia). apply Z.pow_le_mono_r; lia. }
    pose proof unit_pos. assert (P2 : 0 < 10 ^ Z.max e' 0 * 10 ^ places) by (pose proof (ten_pos (Z.max e' 0) ltac:(lia)); nia).
    assert (F : d' * (10 ^ Z.max e' 0 * 10 ^ places) < 10 ^ n * (10 ^ Z.max e' 0 * 10 ^ places)) by (apply Z.mul_lt_mono_pos_r; lia).
    replace (d' * 10 ^ Z.max e' 0 * unit64 * 10 ^ places) with (unit64 * (d' * (10 ^ Z.max e' 0 * 10 ^ places))) by ring.
    replace (10 ^ (n - 1) * (unit64 * 10 ^ (dexp m j - n + places)) * 10 ^ Z.max (- e') 0) with (unit64 * (10 ^ (n - 1) * 10 ^ (dexp m j - n + places) * 10 ^ Z.max (- e') 0)) by ring.
    apply Z.mul_lt_mono_pos_l; lia. }
  (* between it and the number: inside *)
  assert (Conv : forall v, (a * 10 ^ places <= v * b /\ v <= mag m j * 10 ^ places) \/ (v * b <= a * 10 ^ places /\ mag m j * 10 ^ places <= v) -> inside m j v = true).
  { clear Small Big N1 N2 Dn Db Sl Sp. intros v Hv. unfold inside. set (P := 10 ^ places) in *. set (x := mag m j) in *. set (g := gap_below m j) in *. set (h := 2 ^ j) in *.
    clearbody a b P x g h. assert (GP : 0 < g * P <= h * P) by nia.
    assert (J1 : (2 * x - g) * b * P <= 2 * a * P <= (2 * x + h) * b * P) by nia.
    destruct (Z.even m) eqn:Ev.
    - apply andb_true_intro. split; apply Z.leb_le.
      + destruct Hv as [[A C]|[A C]]; [|nia]. assert ((2 * x - g) * P * b <= 2 * v * b) by nia. nia.
      + destruct Hv as [[A C]|[A C]]; [nia|]. assert (2 * v * b <= (2 * x + h) * P * b) by nia. nia.
    - specialize (I2 eq_refl). assert (J2 : (2 * x - g) * b * P < 2 * a * P < (2 * x + h) * b * P) by nia. apply andb_true_intro. split; apply Z.ltb_lt.
      + destruct Hv as [[A C]|[A C]]; [|nia]. assert ((2 * x - g) * P * b < 2 * v * b) by nia. nia.
      + destruct Hv as [[A C]|[A C]]; [nia|]. assert (2 * v * b < (2 * x + h) * P * b) by nia. nia. }
  set (P := 10 ^ places) in *. set (x := mag m j) in *. clearbody a b s t P x.
  destruct (Z.lt_ge_cases e' (dexp m j - n)) as [Lt|Le].
  - specialize (Small Lt). rewrite (Conv (t * s)) in N1; [discriminate|]. left. split; [|lia].
    assert (10 ^ (n - 1) * (s * b) <= t * (s * b)) by (apply Z.mul_le_mono_nonneg_r; nia). nia.
  - destruct (Big Le) as [q Eq]. destruct (Z.le_gt_cases q t) as [Q|Q].
    + rewrite (Conv (t * s)) in N1; [discriminate|]. left. split; [|lia]. rewrite Eq. apply Z.mul_le_mono_nonneg_r; [lia|]. apply Z.mul_le_mono_nonneg_r; lia.
    + rewrite (Conv ((t + 1) * s)) in N2; [discriminate|]. right. split; [|lia]. rewrite Eq. apply Z.mul_le_mono_nonneg_r; [lia|]. apply Z.mul_le_mono_nonneg_r; lia.
Qed.

(** ** The texts of StatsJSON *)
Lemma zero_rounds : rounds_to 0 0 0 0.
Proof.
  assert (Z0 : 0 < 2 ^ 53) by reflexivity. split; [split; [lia|split; [lia|left; reflexivity]]|]. intros m' j' (Hm & Hj & Hc) N. left. unfold distance.
  replace (0 * 10 ^ Z.max 0 0 * 2 ^ 1074 - 0 * 2 ^ 0 * 10 ^ Z.max (- 0) 0) with 0 by ring.
  replace (0 * 10 ^ Z.max 0 0 * 2 ^ 1074 - m' * 2 ^ j' * 10 ^ Z.max (- 0) 0) with (- (m' * 2 ^ j')) by (change (10 ^ Z.max (- 0) 0) with 1; ring).
  rewrite Z.abs_opp. pose proof (two_pos j' Hj) as P. assert (0 < m'); [|nia]. destruct (Z.eq_dec m' 0) as [->|]; [|lia].
  destruct Hc as [->|Hc]; [contradiction N; reflexivity|pose proof pow52_pos; lia].
Qed.
Lemma json_float_parses neg m j : float_ok (Fin64 neg m j) -> exists t, json_float (Fin64 neg m j) = Some t /\ parses_as t (Fin64 neg m j).
Proof.
  intros [Hf Hu]. cbn [json_float]. destruct (Z.eqb_spec m 0) as [->|N].
  - eexists. split; [reflexivity|]. assert (j = 0) as -> by (destruct Hf as (_ & _ & [?|?]); [assumption|pose proof pow52_pos; lia]).
    exists neg, 0, 0, 0, 0. split; [reflexivity|]. split; [|apply zero_rounds]. change (B "0") with (ndec 0). apply ndec_read. lia.
  - assert (H0 : 0 < m) by (destruct Hf as (? & _); lia). pose proof (shortest_spec m j Hf Hu H0) as S. destruct (shortest m j) as [d e].
    destruct S as (i & Hi & Hd & He & Hin & _). eexists. split; [reflexivity|].
    assert (R : rounds_to d e m j) by (apply inside_rounds; [assumption|unfold places; lia|assumption]).
    destruct ((mag m j <? const_1e_6) || (const_1e21 <=? mag m j)).
    + exists neg, d, e, m, j. split; [reflexivity|]. split; [apply fmt_e_read; lia|exact R].
    + unfold fmt_f. destruct (Z.leb_spec 0 e) as [L|L].
      * exists neg, (d * 10 ^ e), 0, m, j. split; [reflexivity|]. split; [apply ndec_read; pose proof (ten_pos e L); nia|].
        apply inside_rounds; [assumption|unfold places; lia|]. replace (d * 10 ^ e * (unit64 * 10 ^ (0 + places))) with (d * (unit64 * 10 ^ (e + places))); [exact Hin|].
        rewrite (ten_split e) by (unfold places; lia). rewrite Z.add_0_l. ring.
      * exists neg, d, e, m, j. split; [reflexivity|]. split; [|exact R]. rewrite point_read by lia. rewrite Z2Nat.id by lia. rewrite Z.opp_involutive. reflexivity.
Qed.
(** A text is parsed as one number only. *)
Lemma mag_inj m j m' j' : float_parts m j -> float_parts m' j' -> mag m' j' = mag m j -> (m', j') = (m, j).
Proof.
  intros F F' E. destruct (decide ((m', j') = (m, j))) as [?|N]; [assumption|exfalso]. pose proof (neighbours m j m' j' F F' N). pose proof (gap_pos m j F).
  destruct F as (_ & Hj & _). pose proof (two_pos j Hj). lia.
Qed.
Lemma rounds_less d e m j m' j' : rounds_to d e m j -> rounds_to d e m' j' -> mag m j < mag m' j' -> False.
Proof.
  intros [F1 R1] [F2 R2] L.
  assert (N : (m', j') <> (m, j)) by (intros [= -> ->]; lia). assert (N' : (m, j) <> (m', j')) by congruence.
  pose proof (R1 m' j' F2 N) as A. pose proof (R2 m j F1 N') as C.
  destruct A as [A|[A Ea]], C as [C|[C Ec]]; try lia. clear C.
  (* a tie: the next number after the first is not further away *)
  destruct (above_parts m j F1) as (m1 & j1 & F & Nn & M). pose proof (R1 m1 j1 F Nn) as D.
  pose proof (neighbours m j m' j' F1 F2 N) as Nb. pose proof (gap_pos m j F1) as G.
  assert (E : mag m' j' = mag m j + 2 ^ j).
  { unfold distance in A, D. fold (mag m j) (mag m' j') in A. fold (mag m j) (mag m1 j1) in D. rewrite M in D.
    pose proof (ten_pos (Z.max (- e) 0) ltac:(lia)) as PB. destruct Nb as [Nb|Nb]; [|lia].
    set (a := d * 10 ^ Z.max e 0 * 2 ^ 1074) in *. set (b := 10 ^ Z.max (- e) 0) in *. set (x := mag m j) in *. set (y := mag m' j') in *. set (h := 2 ^ j) in *. set (g := gap_below m j) in *. clearbody a b x y h g.
    assert (Hd : Z.abs (a - x * b) <= Z.abs (a - (x + h) * b)) by lia. assert (0 < h * b) by nia. assert (x * b < y * b) by nia.
    assert (2 * a = (x + y) * b) by lia. assert (2 * a <= (2 * x + h) * b) by lia. assert (y * b <= (x + h) * b) by nia. nia. }
  destruct (Z.eq_dec (m + 1) (2 ^ 53)) as [E53|N53].
  { assert (Z.even (m + 1) = true) by (rewrite E53; reflexivity). rewrite Z.add_1_r, Z.even_succ, <- Z.negb_even, Ea in *. discriminate. }
  assert (P : (m', j') = (m + 1, j)).
  { apply mag_inj; [|exact F2|rewrite E; unfold mag; ring]. destruct F1 as (Hm & Hj & Hc). split; [lia|]. split; [lia|]. destruct Hc; [left; assumption|right; lia]. }
  assert (m' = m + 1) as -> by congruence. rewrite Z.add_1_r, Z.even_succ, <- Z.negb_even, Ea in Ec. discriminate.
Qed.
Lemma rounds_unique d e m j m' j' : rounds_to d e m j -> rounds_to d e m' j' -> (m', j') = (m, j).
Proof.
  intros R1 R2. apply mag_inj; [apply R1|apply R2|]. destruct (Z.lt_trichotomy (mag m j) (mag m' j')) as [L|[E|L]]; [|symmetry; exact E|]; exfalso.
  - exact (rounds_less d e m j m' j' R1 R2 L).
  - exact (rounds_less d e m' j' m j R2 R1 L).
Qed.
Lemma parses_unique t f f' : parses_as t f -> parses_as t f' -> f = f'.
Proof.
  intros (n & d & e & m & j & -> & R & T) (n' & d' & e' & m' & j' & -> & R' & T'). rewrite R in R'. apply Some_inj in R'. apply pair_equal_spec in R' as [E1 <-]. apply pair_equal_spec in E1 as [<- <-].
  pose proof (rounds_unique d e m j m' j' T T') as U. apply pair_equal_spec in U as [-> ->]. reflexivity.
Qed.

(** ** StatsText *)
Lemma fixed_read neg m j : float_ok (Fin64 neg m j) -> exists d, read_number (fixed_text 6 (Fin64 neg m j)) = Some (neg, d, -6) /\ 2 * distance d (-6) m j <= 2 ^ 1074 /\
  d = half_even (mag m j * 10 ^ 6) unit64.
Proof.
  intros [Hf Hu]. pose proof unit_pos as U. assert (M : 0 <= mag m j * 10 ^ 6) by (unfold mag; destruct Hf as ((? & _) & Hj & _); pose proof (two_pos j Hj); pose proof (ten_pos 6 ltac:(lia)); nia).
  exists (half_even (mag m j * 10 ^ 6) unit64). split; [|split; [|reflexivity]].
  - cbn [fixed_text]. change (Z.of_nat 6) with 6. rewrite point_read by (apply half_even_nonneg; assumption). reflexivity.
  - pose proof (half_even_near (mag m j * 10 ^ 6) unit64 U) as N. unfold distance. fold (mag m j) unit64. change (Z.max (-6) 0) with 0. change (Z.max (- -6) 0) with 6. change (10 ^ 0) with 1. rewrite Z.mul_1_r. exact N.
Qed.
Lemma fixed_shown f : float_ok f -> shown f (fixed_text 6 f).
Proof. destruct f as [|neg|neg m j]; intros H; [reflexivity|reflexivity|]. destruct (fixed_read neg m j H) as (d & R & D & _). exists d. split; assumption. Qed.

(** Lines. *)
Lemma newline_code : byte newline = 10. Proof. reflexivity. Qed.
Lemma not_newline c : c <> newline -> (byte c =? 10) = false.
Proof.
  intros N. apply Z.eqb_neq. intros E. apply N. unfold byte in E. assert (E' : N_of_ascii c = 10%N) by lia. rewrite <- (ascii_N_embedding c), E'. reflexivity.
Qed.
Lemma lines_read x : newline ∉ x -> forall line s, read_lines line (x ++ newline :: s) = match read_lines [] s with Some l => Some ((rev line ++ x) :: l) | None => None end.
Proof.
  induction x as [|c x IH]; intros H line s.
  - cbn [app read_lines]. rewrite newline_code. cbn [Z.eqb]. change (Pos.eqb 10 10) with true. cbv iota. rewrite app_nil_r. reflexivity.
  - apply not_elem_of_cons in H as [Hc Hx]. cbn [app read_lines]. rewrite not_newline by congruence. rewrite IH by exact Hx. cbn [rev]. rewrite <- app_assoc. reflexivity.
Qed.
Lemma equals_none y : forallb (fun c => negb (byte c =? 61)) y = true -> last_equals y = None.
Proof. induction y as [|c y IH]; [reflexivity|]. cbn. intros H. apply andb_prop in H as [Hc H]. rewrite IH by exact H. apply negb_true_iff in Hc. rewrite Hc. reflexivity. Qed.
Lemma equals_last x y : forallb (fun c => negb (byte c =? 61)) y = true -> last_equals (x ++ "="%char :: y) = Some (x, y).
Proof.
  intros H. induction x as [|c x IH].
  - cbn [app last_equals]. rewrite equals_none by exact H. reflexivity.
  - cbn [app last_equals]. rewrite IH. reflexivity.
Qed.
Definition plain_char (c : ascii) : bool := negb (byte c =? 61) && negb (byte c =? 10).
Lemma digit_plain d : dig d -> plain_char (dec_digit d) = true.
Proof. intros H. unfold plain_char. rewrite (proj2 (is_digit_dec d H)). unfold dig in H. apply andb_true_intro. split; apply negb_true_iff, Z.eqb_neq; lia. Qed.
Lemma digits_plain ds : Forall dig ds -> forallb plain_char (map dec_digit ds) = true.
Proof. induction 1 as [|d ds Hd _ IH]; [reflexivity|]. cbn. rewrite digit_plain by exact Hd. exact IH. Qed.
Lemma fixed_plain f : float_ok f -> forallb plain_char (fixed_text 6 f) = true.
Proof.
  destruct f as [|[|]|neg m j]; intros H; [vm_compute; reflexivity|vm_compute; reflexivity|vm_compute; reflexivity|].
  destruct H as [Hf Hu]. assert (M : 0 <= half_even (mag m j * 10 ^ 6) unit64).
  { apply half_even_nonneg; [apply unit_pos|]. unfold mag. destruct Hf as ((? & _) & Hj & _). pose proof (two_pos j Hj). pose proof (ten_pos 6 ltac:(lia)). nia. }
  cbn [fixed_text]. change (Z.of_nat 6) with 6. unfold point_text. change (Z.of_nat 6) with 6. set (n := half_even (mag m j * 10 ^ 6) unit64) in *.
  destruct (ndec_digits (n / 10 ^ 6) ltac:(apply Z.div_pos; [assumption|apply ten_pos; lia])) as (i & Ei & _ & Hi & _).
  destruct (pad_digits 6 n [] M) as (f & Ef & _ & Hf' & _). rewrite app_nil_r in Ef. rewrite Ei, Ef, !forallb_app, !digits_plain by assumption.
  destruct neg; vm_compute; reflexivity.
Qed.
Lemma plain_equals y : forallb plain_char y = true -> forallb (fun c => negb (byte c =? 61)) y = true.
Proof. induction y as [|c y IH]; [reflexivity|]. cbn. unfold plain_char at 1. intros H. apply andb_prop in H as [Hc H]. apply andb_prop in Hc as [Hc _]. rewrite Hc. apply IH, H. Qed.
Lemma plain_newline y : forallb plain_char y = true -> newline ∉ y.
Proof. intros H Hin. rewrite forallb_forall in H. apply elem_of_list_In in Hin. specialize (H newline Hin). discriminate. Qed.
(** Names. *)
Lemma escape_no_newline sp s : newline ∉ s -> newline ∉ escape_loop sp s.
Proof.
  induction s as [|c s IH]; [auto|]. rewrite not_elem_of_cons. intros [Hc Hs]. cbn [escape_loop]. rewrite not_elem_of_app. split; [|apply IH, Hs].
  destruct (sp c); rewrite ?not_elem_of_cons; split_and!; try assumption; try apply not_elem_of_nil; discriminate.
Qed.
Lemma measurement_no_newline s : newline ∉ s -> newline ∉ write_measurement s.
Proof. intros H. unfold write_measurement. destruct (_ && _); [exact H|apply escape_no_newline, H]. Qed.
Lemma tag_no_newline s : newline ∉ s -> newline ∉ write_tag s.
Proof. intros H. unfold write_tag. destruct (_ && _); [exact H|apply escape_no_newline, H]. Qed.
Lemma kvs_no_newline l : forall i, (forall k v, (k, v) ∈ l -> newline ∉ k /\ newline ∉ v) -> newline ∉ write_kvs i l.
Proof.
  induction l as [|[k v] l IH]; intros i H; [apply not_elem_of_nil|]. cbn [write_kvs].
  destruct (H k v ltac:(left)) as [Hk Hv]. rewrite !not_elem_of_app. split_and!.
  - destruct (0 <? i)%nat; [|apply not_elem_of_nil]. rewrite not_elem_of_cons. split; [discriminate|apply not_elem_of_nil].
  - apply tag_no_newline, Hk.
  - rewrite not_elem_of_cons. split; [discriminate|apply not_elem_of_nil].
  - apply tag_no_newline, Hv.
  - apply IH. intros k' v' Hin. apply H. right. exact Hin.
Qed.
Lemma name_no_newline key field : one_line key field -> newline ∉ with_field key field.
Proof.
  intros (Hm & Hfd & Ht). rewrite with_field_range_with_field. unfold with_field_range, series_string_range. rewrite !not_elem_of_app. split_and!.
  - apply measurement_no_newline, Hm.
  - assert (Hl : forall k v, (k, v) ∈ map_to_list (sk_tags key) -> newline ∉ k /\ newline ∉ v) by (intros k v Hin; apply Ht, elem_of_map_to_list, Hin).
    destruct (map_to_list (sk_tags key)) as [|e l]; [apply not_elem_of_nil|]. rewrite not_elem_of_app. split.
    + rewrite not_elem_of_cons. split; [discriminate|apply not_elem_of_nil].
    + apply kvs_no_newline. intros k v Hin. apply Hl. rewrite <- (isort_perm kv_less (e :: l)). exact Hin.
  - rewrite not_elem_of_cons. split; [discriminate|apply not_elem_of_nil].
  - apply tag_no_newline, Hfd.
Qed.
Lemma stats_lines stats : Forall (fun '(key, field, f) => one_line key field /\ float_ok f) stats ->
  read_lines [] (concat (map stat_line stats)) = Some (map (fun '(key, field, f) => with_field key field ++ B "=" ++ fixed_text 6 f) stats).
Proof.
  induction 1 as [|[[key field] f] stats [Hn Hf] _ IH]; [reflexivity|]. cbn [map concat stat_line]. rewrite <- !app_assoc.
  set (x := with_field key field ++ B "=" ++ fixed_text 6 f).
  assert (Hx : newline ∉ x).
  { unfold x. rewrite !not_elem_of_app. split_and!; [apply name_no_newline, Hn|intros Hin; apply elem_of_list_singleton in Hin; discriminate|apply plain_newline, fixed_plain, Hf]. }
  transitivity (read_lines [] (x ++ newline :: concat (map stat_line stats))); [unfold x; rewrite <- !app_assoc; reflexivity|]. rewrite (lines_read x Hx []).
  rewrite IH. reflexivity.
Qed.
Lemma stats_read stats : Forall (fun '(key, field, f) => one_line key field /\ float_ok f) stats ->
  read_stats (concat (map stat_line stats)) = Some (map (fun '(key, field, f) => (with_field key field, fixed_text 6 f)) stats).
Proof.
  intros H. unfold read_stats. rewrite (stats_lines stats H).
  induction H as [|[[key field] f] stats [Hn Hf] _ IH]; [reflexivity|]. cbn [map foldr]. rewrite IH. cbv beta iota.
  change (B "=" ++ fixed_text 6 f) with ("="%char :: fixed_text 6 f). rewrite equals_last by apply plain_equals, fixed_plain, Hf. reflexivity.
Qed.
