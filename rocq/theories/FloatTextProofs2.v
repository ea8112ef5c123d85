(** Shortest digits: what they stand for is rounded to the number (C86). *)
From Verif Require Import Base BaseProofs SeriesModel PresentModel SvgModel SvgSpec SvgProofs SvgNumProofs JsonModel JsonSpec JsonProofs FloatTextModel FloatTextSpec FloatTextProofs.
Local Open Scope Z_scope.
Local Arguments B : simpl never.
Local Arguments Z.pow : simpl never.
Local Arguments Z.mul : simpl never.
Local Opaque Z.pow.

Lemma unit_pos : 0 < unit64. Proof. apply Z.pow_pos_nonneg; lia. Qed.
Lemma ten_pos n : 0 <= n -> 0 < 10 ^ n. Proof. intros. apply Z.pow_pos_nonneg; lia. Qed.
Lemma two_pos n : 0 <= n -> 0 < 2 ^ n. Proof. intros. apply Z.pow_pos_nonneg; lia. Qed.
Lemma ten_split a b : 0 <= a -> 0 <= b -> 10 ^ (a + b) = 10 ^ a * 10 ^ b. Proof. intros. apply Z.pow_add_r; lia. Qed.
Lemma two_split a b : 0 <= a -> 0 <= b -> 2 ^ (a + b) = 2 ^ a * 2 ^ b. Proof. intros. apply Z.pow_add_r; lia. Qed.
Lemma pow53 : 2 ^ 53 = 2 * 2 ^ 52. Proof. reflexivity. Qed.
Lemma pow52_pos : 0 < 2 ^ 52. Proof. reflexivity. Qed.

(** ** The neighbours of a float64 *)
Lemma gap_pos m j : float_parts m j -> 0 < gap_below m j <= 2 ^ j.
Proof.
  intros (_ & Hj & _). unfold gap_below. pose proof (two_pos j Hj). destruct ((m =? 2 ^ 52) && (0 <? j)) eqn:E; [|lia].
  apply andb_prop in E as [_ E]. apply Z.ltb_lt in E. pose proof (two_pos (j - 1) ltac:(lia)). replace j with (1 + (j - 1)) at 3 by lia. rewrite two_split by lia. change (2 ^ 1) with 2. lia.
Qed.
Lemma neighbours m j m' j' : float_parts m j -> float_parts m' j' -> (m', j') <> (m, j) ->
  mag m j + 2 ^ j <= mag m' j' \/ mag m' j' <= mag m j - gap_below m j.
Proof.
  intros (Hm & Hj & Hc) (Hm' & Hj' & Hc') N. unfold mag. rewrite pow53 in Hm, Hm'. pose proof pow52_pos as P52.
  assert (E : m' = m -> j' = j -> False) by congruence. clear N. unfold gap_below. set (T := 2 ^ 52) in *. clearbody T.
  destruct (Z.lt_trichotomy j j') as [L|[->|L]].
  - (* a larger exponent *)
    destruct Hc' as [|Hc']; [lia|]. left. replace j' with (j + (1 + (j' - j - 1))) by lia. rewrite !two_split by lia. change (2 ^ 1) with 2.
    pose proof (two_pos j Hj). pose proof (two_pos (j' - j - 1) ltac:(lia)). set (a := 2 ^ j) in *. set (c := 2 ^ (j' - j - 1)) in *. clearbody a c.
    assert (T <= m' * c) by nia. assert (2 * T * a <= m' * (a * (2 * c))) by (replace (m' * (a * (2 * c))) with (2 * (m' * c) * a) by ring; nia). assert ((m + 1) * a <= 2 * T * a) by nia. lia.
  - pose proof (two_pos j' Hj) as P. destruct (Z.lt_trichotomy m m') as [L|[->|L]]; [left; nia|exfalso; apply E; reflexivity|].
    right. destruct ((m =? T) && (0 <? j')) eqn:G.
    + apply andb_prop in G as [G1 G2]. apply Z.eqb_eq in G1. apply Z.ltb_lt in G2. destruct Hc' as [|Hc']; lia.
    + nia.
  - destruct Hc as [|Hc]; [lia|]. right. replace j with (j' + (1 + (j - j' - 1))) by lia. rewrite !two_split by lia. change (2 ^ 1) with 2.
    pose proof (two_pos j' Hj'). pose proof (two_pos (j - j' - 1) ltac:(lia)).
    destruct ((m =? T) && (0 <? j' + (1 + (j - j' - 1)))) eqn:G.
    + apply andb_prop in G as [G1 G2]. apply Z.eqb_eq in G1. subst m. replace (j' + (1 + (j - j' - 1)) - 1) with (j' + (j - j' - 1)) by lia. rewrite two_split by lia.
      set (a := 2 ^ j') in *. set (c := 2 ^ (j - j' - 1)) in *. clearbody a c.
      assert (m' * a <= (2 * T - 1) * a) by nia. assert ((2 * T - 1) * a <= (2 * T - 1) * (a * c)) by nia. lia.
    + apply andb_false_iff in G as [G|G]; [|apply Z.ltb_ge in G; lia]. apply Z.eqb_neq in G.
      set (a := 2 ^ j') in *. set (c := 2 ^ (j - j' - 1)) in *. clearbody a c.
      assert (m' * a <= 2 * T * a) by nia. assert (2 * T * a <= 2 * T * (a * c)) by nia. assert ((T + 1) * (a * (2 * c)) <= m * (a * (2 * c))) by nia. lia.
Qed.

(** ** Inside the interval: rounded to the number *)
Lemma distance_scaled d e m j : - places <= e ->
  distance d e m j * 10 ^ places = Z.abs (d * (unit64 * 10 ^ (e + places)) - mag m j * 10 ^ places) * 10 ^ Z.max (- e) 0.
Proof.
  intros H. unfold distance, mag. rewrite <- (Z.abs_eq (10 ^ places)) at 1 by (apply Z.lt_le_incl, ten_pos; unfold places; lia).
  rewrite <- (Z.abs_eq (10 ^ Z.max (- e) 0)) at 2 by (apply Z.lt_le_incl, ten_pos; lia).
  rewrite <- !Z.abs_mul. f_equal. fold unit64.
  assert (E : 10 ^ Z.max e 0 * 10 ^ places = 10 ^ (e + places) * 10 ^ Z.max (- e) 0).
  { rewrite <- !ten_split by (unfold places in *; lia). f_equal. lia. }
  rewrite !Z.mul_sub_distr_r. f_equal; [|ring]. transitivity (d * unit64 * (10 ^ Z.max e 0 * 10 ^ places)); [ring|]. rewrite E. ring.
Qed.
Lemma inside_rounds d e m j : float_parts m j -> - places <= e -> inside m j (d * (unit64 * 10 ^ (e + places))) = true -> rounds_to d e m j.
Proof.
  intros Hf He Hin. split; [exact Hf|]. intros m' j' Hf' N.
  pose proof (distance_scaled d e m j He) as D. pose proof (distance_scaled d e m' j' He) as D'.
  pose proof (neighbours m j m' j' Hf Hf' N) as Nb. pose proof (gap_pos m j Hf) as G. unfold inside in Hin.
  pose proof (ten_pos places ltac:(unfold places; lia)) as PP. pose proof (ten_pos (Z.max (- e) 0) ltac:(lia)) as PB.
  set (P := 10 ^ places) in *. set (v := d * (unit64 * 10 ^ (e + places))) in *. set (b := 10 ^ Z.max (- e) 0) in *.
  set (x := mag m j) in *. set (y := mag m' j') in *. set (g := gap_below m j) in *. set (h := 2 ^ j) in *. clearbody P v b x y g h. clear Hf Hf' N He.
  set (a1 := distance d e m j) in *. set (a2 := distance d e m' j') in *. clearbody a1 a2.
  assert (GP : 0 < g * P <= h * P) by nia.
  assert (Nb' : (x + h) * P <= y * P \/ y * P <= (x - g) * P) by (destruct Nb; [left|right]; nia).
  destruct (Z.even m) eqn:Ev.
  - apply andb_prop in Hin as [H1 H2]. apply Z.leb_le in H1, H2.
    assert (C : Z.abs (v - x * P) <= Z.abs (v - y * P)) by lia.
    assert (a1 * P <= a2 * P) by (rewrite D, D'; apply Z.mul_le_mono_nonneg_r; lia).
    assert (a1 <= a2) by nia. destruct (Z.eq_dec a1 a2); [right; split; [assumption|reflexivity]|left; lia].
  - apply andb_prop in Hin as [H1 H2]. apply Z.ltb_lt in H1, H2.
    assert (C : Z.abs (v - x * P) < Z.abs (v - y * P)) by lia.
    assert (a1 * P < a2 * P) by (rewrite D, D'; apply Z.mul_lt_mono_pos_r; lia). left. nia.
Qed.

(** ** The decimal exponent *)
Lemma exponent_spec fuel : forall x k, - places <= k - 1 ->
  unit64 * 10 ^ (k - 1 + places) <= x < unit64 * 10 ^ (k + Z.of_nat fuel + places) ->
  let r := exponent fuel x (unit64 * 10 ^ (k + places)) k in
  unit64 * 10 ^ (r - 1 + places) <= x < unit64 * 10 ^ (r + places) /\ k <= r <= k + Z.of_nat fuel.
Proof.
  induction fuel as [|fuel IH]; intros x k Hk H; cbn [exponent].
  - replace (k + Z.of_nat 0 + places) with (k + places) in H by lia. cbv zeta. split; [exact H|lia].
  - destruct (Z.ltb_spec x (unit64 * 10 ^ (k + places))) as [L|L]; [cbv zeta; split; lia|].
    replace (10 * (unit64 * 10 ^ (k + places))) with (unit64 * 10 ^ (k + 1 + places)).
    2: { replace (k + 1 + places) with (1 + (k + places)) by lia. rewrite ten_split by lia. change (10 ^ 1) with 10. ring. }
    destruct (IH x (k + 1) ltac:(lia)) as [A C].
    { replace (k + 1 - 1 + places) with (k + places) by lia. replace (k + 1 + Z.of_nat fuel + places) with (k + Z.of_nat (S fuel) + places) by lia. lia. }
    split; [exact A|lia].
Qed.
Definition dexp (m j : Z) : Z := exponent 640 (mag m j * 10 ^ places) (unit64 * 10 ^ (places - 323)) (-323).
Lemma dexp_spec m j : float_parts m j -> j <= 2045 -> 0 < m ->
  unit64 * 10 ^ (dexp m j - 1 + places) <= mag m j * 10 ^ places < unit64 * 10 ^ (dexp m j + places) /\ -323 <= dexp m j <= 317.
Proof.
  intros (Hm & Hj & _) Hu H0. unfold dexp. replace (places - 323) with (-323 + places) by (unfold places; lia).
  refine (exponent_spec 640 _ (-323) _ _); [unfold places; lia|].
  assert (A : unit64 * 10 ^ (-323 - 1 + places) <= 10 ^ places).
  { apply (Z.leb_le _ _). vm_compute. reflexivity. }
  assert (C : 2 ^ 53 * 2 ^ 2045 * 10 ^ places <= unit64 * 10 ^ (-323 + Z.of_nat 640 + places)).
  { apply (Z.leb_le _ _). vm_compute. reflexivity. }
  assert (D : 2 ^ j <= 2 ^ 2045) by (apply Z.pow_le_mono_r; lia). pose proof (two_pos j Hj) as PJ.
  pose proof (ten_pos places ltac:(unfold places; lia)) as PP. unfold mag.
  set (u1 := unit64 * 10 ^ (-323 - 1 + places)) in *. set (u2 := unit64 * 10 ^ (-323 + Z.of_nat 640 + places)) in *. set (P := 10 ^ places) in *. set (a := 2 ^ j) in *.
  set (t := 2 ^ 53) in *. set (c := 2 ^ 2045) in *. clearbody u1 u2 P a t c. split.
  - assert (1 <= m * a) by nia. nia.
  - assert (m * a < t * c) by nia. nia.
Qed.

(** ** Seventeen digits are enough *)
Section short.
  Context (m j : Z) (Hf : float_parts m j) (Hu : j <= 2045) (H0 : 0 < m).
  Local Notation k := (dexp m j).
  Local Notation X := (mag m j * 10 ^ places).
  Local Notation step n := (unit64 * 10 ^ (k - n + places)).
  Lemma step_pos n : n <= 70 -> 0 < step n.
  Proof. intros H. destruct (dexp_spec m j Hf Hu H0) as [_ K]. apply Z.mul_pos_pos; [apply unit_pos|apply ten_pos; unfold places; lia]. Qed.
  Lemma step_le n : 1 <= n <= 70 -> step n * 10 ^ (n - 1) <= X < step n * 10 ^ n.
  Proof.
    intros H. destruct (dexp_spec m j Hf Hu H0) as [B1 K]. rewrite <- !Z.mul_assoc, <- !ten_split by (unfold places; lia).
    replace (k - n + places + (n - 1)) with (k - 1 + places) by lia. replace (k - n + places + n) with (k + places) by lia. exact B1.
  Qed.
  Lemma step17 : step 17 < gap_below m j * 10 ^ places.
  Proof.
    pose proof (step_le 17 ltac:(lia)) as [S _]. replace (17 - 1) with 16 in S by lia.
    assert (G : mag m j <= 2 ^ 53 * gap_below m j).
    { destruct Hf as (Hm & Hj & _). unfold mag, gap_below. destruct ((m =? 2 ^ 52) && (0 <? j)) eqn:E.
      - apply andb_prop in E as [E1 E2]. apply Z.eqb_eq in E1. apply Z.ltb_lt in E2. rewrite E1. replace j with (1 + (j - 1)) at 1 by lia. rewrite two_split by lia. rewrite pow53. change (2 ^ 1) with 2. lia.
      - pose proof (two_pos j Hj). nia. }
    assert (T : 2 ^ 53 < 10 ^ 16) by reflexivity. assert (T0 : 0 < 2 ^ 53) by reflexivity.
    pose proof (ten_pos places ltac:(unfold places; lia)) as PP. pose proof (step_pos 17 ltac:(lia)) as SP. pose proof (proj1 (gap_pos m j Hf)) as GP.
    set (s := step 17) in *. set (P := 10 ^ places) in *. set (g := gap_below m j) in *. set (x := mag m j) in *. set (a := 2 ^ 53) in *. set (c := 10 ^ 16) in *.
    clearbody s P g x a c. assert (s * c <= a * (g * P)) by nia. assert (A : 0 < g * P) by nia. destruct (Z.le_gt_cases (g * P) s) as [L|L]; [|exact L].
    assert (a * (g * P) <= a * s) by (apply Z.mul_le_mono_nonneg_l; lia). nia.
  Qed.
  Lemma inside_near v : 2 * Z.abs (v - X) <= step 17 -> inside m j v = true.
  Proof.
    intros H. pose proof step17 as S. pose proof (gap_pos m j Hf) as [_ G]. pose proof (ten_pos places ltac:(unfold places; lia)) as PP.
    assert (GP : gap_below m j * 10 ^ places <= 2 ^ j * 10 ^ places) by (apply Z.mul_le_mono_nonneg_r; lia).
    unfold inside. set (s := step 17) in *. set (P := 10 ^ places) in *. set (g := gap_below m j) in *. set (x := mag m j) in *. set (h := 2 ^ j) in *. clearbody s P g x h.
    assert ((2 * x - g) * P < 2 * v) by nia. assert (2 * v < (2 * x + h) * P) by nia.
    destruct (Z.even m); apply andb_true_intro; split; (apply Z.leb_le || apply Z.ltb_lt); lia.
  Qed.
  (** What is tried with n digits. *)
  Local Notation down n := (X / step n).
  Local Notation okdown n := (inside m j (down n * step n)).
  Local Notation okup n := (inside m j ((down n + 1) * step n)).
  Lemma down_spec n : n <= 70 -> down n * step n <= X < (down n + 1) * step n.
  Proof.
    intros H. pose proof (step_pos n H) as P. pose proof (Z.div_mod X (step n) ltac:(lia)) as E. pose proof (Z.mod_pos_bound X (step n) P) as R. lia.
  Qed.
  Lemma down_bound n : 1 <= n <= 70 -> 10 ^ (n - 1) <= down n < 10 ^ n.
  Proof.
    intros H. pose proof (step_le n H) as [L U]. pose proof (step_pos n ltac:(lia)) as P. split.
    - apply Z.div_le_lower_bound; [exact P|]. lia.
    - apply Z.div_lt_upper_bound; [exact P|]. lia.
  Qed.
  Lemma last_try : okdown 17 || okup 17 = true.
  Proof.
    pose proof (down_spec 17 ltac:(lia)) as D. set (a := down 17) in *. destruct (Z.le_gt_cases (2 * (X - a * step 17)) (step 17)) as [L|L].
    - rewrite (inside_near (a * step 17)); [reflexivity|]. lia.
    - rewrite (inside_near ((a + 1) * step 17)); [apply orb_true_r|]. lia.
  Qed.
  Lemma go_spec fuel : forall n, 1 <= n -> n + Z.of_nat fuel = 18 -> 0 < Z.of_nat fuel ->
    (forall i, 1 <= i < n -> okdown i = false /\ okup i = false) ->
    exists i, 1 <= i <= 17 /\ snd (shortest_go fuel m j k n) = k - i /\
      let d := fst (shortest_go fuel m j k n) in
      10 ^ (i - 1) <= d <= 10 ^ i /\ inside m j (d * step i) = true /\ forall i', 1 <= i' < i -> okdown i' = false /\ okup i' = false.
  Proof.
    induction fuel as [|fuel IH]; intros n Hn Hs Hp Hb; [lia|]. cbn [shortest_go].
    pose proof (down_bound n ltac:(lia)) as D. pose proof (step_pos n ltac:(lia)) as SP.
    destruct (okdown n) eqn:E1; destruct (okup n) eqn:E2; cbn [andb].
    - exists n. split; [lia|]. split; [reflexivity|]. cbv zeta. cbn [fst].
      destruct (half_even_cases X (step n) SP) as [->| ->]; (split; [lia|split; [assumption|exact Hb]]).
    - exists n. split; [lia|]. split; [reflexivity|]. cbv zeta. cbn [fst]. split; [lia|split; [assumption|exact Hb]].
    - exists n. split; [lia|]. split; [reflexivity|]. cbv zeta. cbn [fst]. split; [lia|split; [assumption|exact Hb]].
    - destruct (Z.eq_dec n 17) as [->|N17]; [pose proof last_try as T; rewrite E1, E2 in T; discriminate|].
      apply IH; [lia|lia|lia|]. intros i Hi. destruct (Z.eq_dec i n) as [->|]; [split; assumption|apply Hb; lia].
  Qed.
End short.
Lemma trim_spec fuel : forall d e, 0 < d -> let r := trim_zeros fuel d e in 0 < fst r <= d /\ e <= snd r /\ d = fst r * 10 ^ (snd r - e).
Proof.
  induction fuel as [|fuel IH]; intros d e H; cbn [trim_zeros].
  - cbv zeta. cbn [fst snd]. rewrite Z.sub_diag. change (10 ^ 0) with 1. lia.
  - destruct (Z.eqb_spec (d mod 10) 0) as [E|E].
    + pose proof (Z.div_mod d 10 ltac:(lia)) as Dm. destruct (IH (d / 10) (e + 1) ltac:(lia)) as (A & C & D). cbv zeta in *. split; [lia|]. split; [lia|].
      replace (snd (trim_zeros fuel (d / 10) (e + 1)) - e) with (1 + (snd (trim_zeros fuel (d / 10) (e + 1)) - (e + 1))) by lia. rewrite ten_split by lia. change (10 ^ 1) with 10. lia.
    + cbv zeta. cbn [fst snd]. rewrite Z.sub_diag. change (10 ^ 0) with 1. lia.
Qed.
Lemma trim_pow i : forall fuel e, 0 <= i <= Z.of_nat fuel -> fst (trim_zeros fuel (10 ^ i) e) = 1.
Proof.
  intros fuel. revert i. induction fuel as [|fuel IH]; intros i e H.
  - replace i with 0 by lia. reflexivity.
  - cbn [trim_zeros]. destruct (Z.eq_dec i 0) as [->|N]; [reflexivity|]. replace i with (1 + (i - 1)) by lia. rewrite ten_split by lia. change (10 ^ 1) with 10.
    rewrite (Z.mul_comm 10), Z.mod_mul, Z.div_mul by lia. cbn [Z.eqb]. apply IH. lia.
Qed.
Lemma shortest_spec m j : float_parts m j -> j <= 2045 -> 0 < m ->
  let '(d, e) := shortest m j in
  exists i, 1 <= i <= 17 /\ 0 < d < 10 ^ i /\ -340 <= e /\ inside m j (d * (unit64 * 10 ^ (e + places))) = true /\
    forall n, 1 <= n < i -> let s := unit64 * 10 ^ (dexp m j - n + places) in let t := mag m j * 10 ^ places / s in
      inside m j (t * s) = false /\ inside m j ((t + 1) * s) = false.
Proof.
  intros Hf Hu H0. unfold shortest. fold (dexp m j). cbv zeta.
  destruct (go_spec m j Hf Hu H0 17 1 ltac:(lia) ltac:(lia) ltac:(lia) ltac:(intros; lia)) as (i & Hi & Es & Hd). cbv zeta in Hd. destruct Hd as (Hb & Hin & Hno).
  pose proof (dexp_spec m j Hf Hu H0) as [_ K].
  destruct (shortest_go 17 m j (dexp m j) 1) as [d e]. cbn [fst snd] in Es, Hb, Hin. subst e.
  assert (D0 : 0 < d) by (pose proof (ten_pos (i - 1) ltac:(lia)); lia).
  pose proof (trim_spec 17 d (dexp m j - i) D0) as T. pose proof (trim_pow i 17 (dexp m j - i) ltac:(lia)) as T1.
  assert (Lt : fst (trim_zeros 17 d (dexp m j - i)) < 10 ^ i).
  { cbv zeta in T. destruct (Z.eq_dec d (10 ^ i)) as [->|]; [rewrite T1; apply Z.pow_gt_1; lia|lia]. }
  destruct (trim_zeros 17 d (dexp m j - i)) as [d' e']. cbv zeta in T. cbn [fst snd] in T, Lt. destruct T as (A & C & D).
  exists i. split; [exact Hi|]. split; [lia|]. split; [lia|]. split; [|exact Hno].
  replace (d' * (unit64 * 10 ^ (e' + places))) with (d * (unit64 * 10 ^ (dexp m j - i + places))); [exact Hin|].
  rewrite D. replace (e' + places) with ((e' - (dexp m j - i)) + (dexp m j - i + places)) by lia. rewrite (ten_split (e' - (dexp m j - i))) by (unfold places; lia). ring.
Qed.
