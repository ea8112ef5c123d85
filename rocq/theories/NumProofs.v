(** The arithmetic of reported numbers (for C92). *)
From Coq Require Import Reals Lra Lia.
From Flocq Require Import Core BinarySingleNaN Plus_error Relative Sterbenz.
From Verif Require Import Base BaseProofs SeriesModel Fval DistModel QueryReal QueryModel QuerySpec QueryProofs NumModel NumSpec MeterModel MeterSpec MeterProofs SpecBase.
Local Open Scope R_scope.

Local Instance v64 : Valid_exp fexp64 := fexp_correct 53 1024 prec53.

Lemma nearest_rnd x : nearest x = rnd x.
Proof. reflexivity. Qed.

Lemma rnd_opp x : rnd (- x) = - rnd x.
Proof. apply round_NE_opp. Qed.

(** ** Integers *)
Lemma in64_abs z : in64 z -> Rabs (IZR z) <= pow2 63.
Proof. unfold in64. intros H. rewrite <- abs_IZR. change (pow2 63) with (IZR (2 ^ 63)). apply IZR_le. lia. Qed.

Lemma int_value z : in64 z -> is_finite (int64_64 z) = true /\ B2R (int64_64 z) = rnd (IZR z).
Proof.
  intros Hz. unfold int64_64.
  pose proof (binary_normalize_correct 53 1024 prec53 emax1024 mode_NE z 0 false) as C. cbv zeta in C. cbn [round_mode] in C.
  assert (E : F2R (Float radix2 z 0) = IZR z) by (unfold F2R; cbn; lra). rewrite E in C.
  rewrite small_finite in C.
  2:{ apply Rle_trans with (1 := in64_abs z Hz). apply bpow_le. lia. }
  destruct C as (C1 & C2 & _). auto.
Qed.

Lemma int_exact z : (Z.abs z <= 2 ^ 53)%Z -> is_finite (int64_64 z) = true /\ B2R (int64_64 z) = IZR z.
Proof. intros Hz. destruct (int_value z) as [H1 H2]; [unfold in64; lia|]. split; [exact H1|]. rewrite H2. apply rnd_fmt, fmt_int, Hz. Qed.

Lemma rnd_err x : x = 0 \/ pow2 (-1000) <= Rabs x -> exists e, Rabs e <= pow2 (-53) /\ rnd x = x * (1 + e).
Proof.
  intros [->|Hx].
  - exists 0. rewrite Rabs_R0, rnd_0. split; [apply bpow_ge_0|lra].
  - destruct (relative_error_N_FLT_ex radix2 (-1074) 53 prec53 (fun z => negb (Z.even z)) x) as (e & H1 & H2).
    + apply Rle_trans with (2 := Hx). apply bpow_le. lia.
    + exists e. split; [|exact H2]. apply Rle_trans with (1 := H1). change (- (53) + 1)%Z with (-53 + 1)%Z. rewrite bpow_plus.
      change (pow2 1) with 2. lra.
Qed.

Lemma int_cases z : IZR z = 0 \/ 1 <= Rabs (IZR z).
Proof.
  destruct (Z.eq_dec z 0%Z) as [->|Hz]; [left; reflexivity|right]. rewrite <- abs_IZR. apply (IZR_le 1). lia.
Qed.

Lemma pow_small : pow2 (-1000) <= / 1000000000000000000000.
Proof. apply Rle_trans with (pow2 (-80)); [apply bpow_le; lia|].
  change (pow2 (-80)) with (/ 1208925819614629174706176). lra. Qed.

Lemma int_err z : in64 z -> exists e, Rabs e <= pow2 (-53) /\ B2R (int64_64 z) = IZR z * (1 + e).
Proof.
  intros Hz. destruct (int_value z Hz) as [_ ->]. apply rnd_err. pose proof pow_small.
  destruct (int_cases z); [left; assumption|right; lra].
Qed.

Lemma int_mono z1 z2 : in64 z1 -> in64 z2 -> (z1 <= z2)%Z -> B2R (int64_64 z1) <= B2R (int64_64 z2).
Proof. intros H1 H2 H. destruct (int_value z1 H1) as [_ ->], (int_value z2 H2) as [_ ->]. apply rnd_le, IZR_le, H. Qed.

(** A relative error below 1 keeps the sign. *)
Lemma close_sign x y : Rabs (y - x) <= / 2 * Rabs x -> (0 < x <-> 0 < y) /\ (x < 0 <-> y < 0) /\ (x = 0 <-> y = 0).
Proof.
  intros H. destruct (Rtotal_order x 0) as [Hx|[Hx|Hx]].
  - rewrite (Rabs_left x) in H by assumption. apply Rabs_le_inv in H. lra.
  - subst x. rewrite Rabs_R0 in H. assert (y = 0).
    { replace (y - 0) with y in H by lra. pose proof (Rabs_pos y). destruct (Req_dec y 0); [assumption|].
      pose proof (Rabs_pos_lt y H1). lra. }
    lra.
  - rewrite (Rabs_pos_eq x) in H by lra. apply Rabs_le_inv in H. lra.
Qed.

Lemma rel_abs x e u : Rabs e <= u -> Rabs (x * (1 + e) - x) <= u * Rabs x.
Proof.
  intros H. replace (x * (1 + e) - x) with (e * x) by ring. rewrite Rabs_mult. apply Rmult_le_compat_r; [apply Rabs_pos|exact H].
Qed.

Lemma u_val : pow2 (-53) = / 9007199254740992.
Proof. reflexivity. Qed.

(** ** Seconds *)
Local Notation K := 1000000000%Z.
Definition sec_r (d : Z) : R := rnd (IZR (Z.quot d K) + rnd (IZR (Z.rem d K) / IZR K)).

Lemma sec_parts d : (d = K * Z.quot d K + Z.rem d K)%Z.
Proof. apply Z.quot_rem'. Qed.

Lemma sec_bounds d : (Z.abs d <= 2 ^ 63)%Z -> (Z.abs (Z.quot d K) <= 2 ^ 34)%Z /\ (Z.abs (Z.rem d K) < K)%Z.
Proof.
  intros H. pose proof (Z.rem_bound_abs d K ltac:(lia)). pose proof (sec_parts d).
  split; [|lia]. assert (Z.abs (K * Z.quot d K) <= Z.abs d + K)%Z by lia. rewrite Z.abs_mul in *. lia.
Qed.

Lemma rem_ratio d : (Z.abs d <= 2 ^ 63)%Z -> Rabs (IZR (Z.rem d K) / IZR K) <= 1.
Proof.
  intros H. destruct (sec_bounds d H) as [_ H2]. unfold Rdiv. rewrite Rabs_mult, <- abs_IZR, (Rabs_pos_eq (/ IZR K)) by lra.
  assert (IZR (Z.abs (Z.rem d K)) <= IZR K) by (apply IZR_le; lia).
  apply Rmult_le_reg_r with (IZR K); [lra|]. rewrite Rmult_assoc, Rinv_l by lra. lra.
Qed.

Lemma rnd_abs_1 x : Rabs x <= 1 -> Rabs (rnd x) <= 1.
Proof. intros H. apply abs_round_le_generic; auto with typeclass_instances. apply (fmt_int 1). lia. Qed.

Lemma seconds_value d : in64 d -> is_finite (seconds d) = true /\ B2R (seconds d) = sec_r d.
Proof.
  intros Hd'. assert (Z.abs d <= 2 ^ 63)%Z as Hd by (unfold in64 in Hd'; lia). destruct (sec_bounds d Hd) as [H1 H2]. unfold seconds, sec_r.
  destruct (int_exact (Z.quot d K)) as [F1 E1]; [lia|]. destruct (int_exact (Z.rem d K)) as [F2 E2]; [lia|].
  destruct (int_exact K) as [F3 E3]; [lia|].
  pose proof (Bdiv_correct 53 1024 prec53 emax1024 mode_NE (int64_64 (Z.rem d K)) (int64_64 K)) as C.
  cbn [round_mode] in C. rewrite E2, E3 in C. pose proof (rem_ratio d Hd) as Hr.
  rewrite small_finite in C.
  2:{ apply Rle_trans with (1 := Hr). apply (bpow_le radix2 0 200). lia. }
  destruct C as (C1 & C2 & _); [lra|]. rewrite F2 in C2.
  pose proof (Bplus_correct 53 1024 prec53 emax1024 mode_NE (int64_64 (Z.quot d K)) (Bdiv mode_NE (int64_64 (Z.rem d K)) (int64_64 K)) F1 C2) as P.
  cbn [round_mode] in P. rewrite C1, E1 in P. rewrite small_finite in P.
  - destruct P as (P1 & P2 & _). auto.
  - apply Rle_trans with (1 := Rabs_triang _ _). pose proof (rnd_abs_1 _ Hr).
    assert (Rabs (IZR (Z.quot d K)) <= IZR (2 ^ 34)) by (rewrite <- abs_IZR; apply IZR_le; lia).
    apply Rle_trans with (pow2 35); [|apply bpow_le; lia]. change (pow2 35) with (IZR (2 ^ 35)).
    replace (2 ^ 34)%Z with 17179869184%Z in * by reflexivity. replace (2 ^ 35)%Z with 34359738368%Z by reflexivity. lra.
Qed.

Lemma sec_opp d : sec_r (- d) = - sec_r d.
Proof.
  unfold sec_r. rewrite Z.quot_opp_l, Z.rem_opp_l by lia. rewrite !opp_IZR.
  replace (- IZR (Z.rem d K) / IZR K) with (- (IZR (Z.rem d K) / IZR K)) by (unfold Rdiv; ring).
  rewrite (rnd_opp (_ / _)).
  replace (- IZR (Z.quot d K) + - rnd (IZR (Z.rem d K) / IZR K)) with (- (IZR (Z.quot d K) + rnd (IZR (Z.rem d K) / IZR K))) by ring.
  apply rnd_opp.
Qed.

Lemma sec_exact d : IZR d / IZR K = IZR (Z.quot d K) + IZR (Z.rem d K) / IZR K.
Proof. rewrite (sec_parts d) at 1. rewrite plus_IZR, mult_IZR. field. Qed.

Lemma plus_rel x y : fmt x -> fmt y -> exists e, Rabs e <= pow2 (-53) /\ rnd (x + y) = (x + y) * (1 + e).
Proof.
  intros Hx Hy. destruct (FLT_plus_error_N_ex radix2 (-1074) 53 (fun z => negb (Z.even z)) x y Hx Hy) as (e & H1 & H2).
  exists e. split; [|exact H2]. apply Rle_trans with (1 := H1).
  assert (u_ro radix2 53 = pow2 (-53)) as ->.
  { unfold u_ro. change (-53 + 1)%Z with (-52)%Z. change (- (53) + 1)%Z with (-52)%Z. change (pow2 (-52)) with (/ 4503599627370496). rewrite u_val. lra. }
  pose proof (bpow_gt_0 radix2 (-53)). set (u := pow2 (-53)) in *. clearbody u.
  apply Rmult_le_reg_r with (1 + u); [lra|]. unfold Rdiv. rewrite Rmult_assoc, Rinv_l by lra. nra.
Qed.

Lemma sec_close_pos d : (0 <= d <= 2 ^ 63)%Z ->
  Rabs (sec_r d - IZR d / IZR K) <= (pow2 (-52) + pow2 (-106)) * (IZR d / IZR K).
Proof.
  intros [H0 Hd]. destruct (sec_bounds d ltac:(lia)) as [H1 H2].
  assert (0 <= Z.quot d K)%Z as Hq by (apply Z.quot_pos; lia). assert (0 <= Z.rem d K)%Z as Hr by (apply Z.rem_nonneg; lia).
  apply IZR_le in Hq, Hr. rewrite sec_exact. unfold sec_r. set (s := IZR (Z.quot d K)) in *.
  assert (0 <= IZR (Z.rem d K) / IZR K) as Hn by (apply Rmult_le_pos; lra).
  destruct (rnd_err (IZR (Z.rem d K) / IZR K)) as (e1 & He1 & E1).
  { destruct (int_cases (Z.rem d K)) as [->|Hc]; [left; lra|right]. rewrite Rabs_pos_eq in Hc by lra.
    rewrite Rabs_pos_eq by lra. pose proof pow_small. assert (/ 1000000000 <= IZR (Z.rem d K) / IZR K); [|lra].
    unfold Rdiv. apply Rle_trans with (1 * / IZR K); [lra|]. apply Rmult_le_compat_r; [|exact Hc]. left. apply Rinv_0_lt_compat. lra. }
  set (n := IZR (Z.rem d K) / IZR K) in *. clearbody n.
  destruct (plus_rel s (rnd n)) as (e2 & He2 & E2).
  { apply fmt_int. lia. } { apply generic_format_round; auto with typeclass_instances. }
  rewrite E2, E1. assert (pow2 (-52) = 2 * pow2 (-53)) as -> by (change (pow2 (-52)) with (/ 4503599627370496); rewrite u_val; lra). change (pow2 (-106)) with (pow2 (-53 + -53)). rewrite bpow_plus.
  pose proof (bpow_gt_0 radix2 (-53)). set (u := pow2 (-53)) in *. clearbody u.
  replace ((s + n * (1 + e1)) * (1 + e2) - (s + n)) with (e2 * (s + n) + n * (e1 * (1 + e2))) by ring.
  apply Rle_trans with (1 := Rabs_triang _ _). rewrite !Rabs_mult, (Rabs_pos_eq (s + n)), (Rabs_pos_eq n) by lra.
  assert (Rabs (1 + e2) <= 1 + u) by (pose proof (Rabs_triang 1 e2); rewrite Rabs_R1 in *; lra).
  assert (Rabs e1 * Rabs (1 + e2) <= u * (1 + u)) by (apply Rmult_le_compat; auto using Rabs_pos).
  assert (Rabs e2 * (s + n) <= u * (s + n)) by (apply Rmult_le_compat_r; lra).
  assert (n * (Rabs e1 * Rabs (1 + e2)) <= n * (u * (1 + u))) by (apply Rmult_le_compat_l; lra).
  assert (0 <= s * (u * (1 + u))) by (apply Rmult_le_pos; [lra|apply Rmult_le_pos; lra]). nra.
Qed.

Lemma sec_close d : in64 d ->
  Rabs (sec_r d - IZR d / IZR K) <= (pow2 (-52) + pow2 (-106)) * Rabs (IZR d / IZR K).
Proof.
  unfold in64. intros Hd. destruct (Z_le_gt_dec 0%Z d) as [H0|H0].
  - rewrite (Rabs_pos_eq (_ / _)); [apply sec_close_pos; lia|]. apply Rmult_le_pos; [apply IZR_le, H0|lra].
  - pose proof (sec_close_pos (- d) ltac:(lia)) as H. rewrite sec_opp, opp_IZR in H.
    replace (- IZR d / IZR K) with (- (IZR d / IZR K)) in H by (unfold Rdiv; ring).
    rewrite (Rabs_left (IZR d / IZR K)). 2:{ apply Rmult_lt_reg_r with (IZR K); [lra|]. unfold Rdiv. rewrite Rmult_assoc, Rinv_l by lra.
      assert (IZR d < 0) by (apply (IZR_lt d 0%Z); lia). lra. }
    replace (sec_r d - IZR d / IZR K) with (- (- sec_r d - - (IZR d / IZR K))) by ring. rewrite Rabs_Ropp. exact H.
Qed.

Lemma c_small : pow2 (-52) + pow2 (-106) <= / 4503599627370495.
Proof.
  change (pow2 (-52)) with (/ 4503599627370496). change (pow2 (-106)) with (/ 81129638414606681695789005144064). lra.
Qed.

Lemma div_K_sign d : (0 < IZR d / IZR K <-> (0 < d)%Z) /\ (IZR d / IZR K < 0 <-> (d < 0)%Z) /\ (IZR d / IZR K = 0 <-> d = 0%Z).
Proof.
  assert (IZR d = IZR d / IZR K * 1000000000) as E by field. split_and!; split; intros H.
  - apply lt_IZR. lra.
  - apply IZR_lt in H. lra.
  - apply lt_IZR. lra.
  - apply IZR_lt in H. lra.
  - apply eq_IZR. lra.
  - subst d. lra.
Qed.

Lemma sec_sign d : in64 d -> (0 < sec_r d <-> (0 < d)%Z) /\ (sec_r d < 0 <-> (d < 0)%Z) /\ (sec_r d = 0 <-> d = 0%Z).
Proof.
  intros Hd. pose proof (sec_close d Hd) as H. pose proof c_small.
  destruct (close_sign (IZR d / IZR K) (sec_r d)) as (A & B & C).
  - apply Rle_trans with (1 := H). apply Rmult_le_compat_r; [apply Rabs_pos|lra].
  - destruct (div_K_sign d) as (A' & B' & C'). tauto.
Qed.

Lemma sec_mono_pos d1 d2 : (0 <= d1 <= d2)%Z -> sec_r d1 <= sec_r d2.
Proof.
  intros H. pose proof (sec_parts d1) as P1. pose proof (sec_parts d2) as P2.
  pose proof (Z.rem_bound_pos d1 K ltac:(lia) ltac:(lia)) as R1. pose proof (Z.rem_bound_pos d2 K ltac:(lia) ltac:(lia)) as R2.
  unfold sec_r. set (q1 := Z.quot d1 K) in *. set (q2 := Z.quot d2 K) in *. set (r1 := Z.rem d1 K) in *. set (r2 := Z.rem d2 K) in *.
  clearbody q1 q2 r1 r2. apply rnd_le.
  destruct (Z.eq_dec q1 q2) as [->|Hq].
  - assert (rnd (IZR r1 / IZR K) <= rnd (IZR r2 / IZR K)); [|lra]. apply rnd_le. apply Rmult_le_compat_r; [lra|]. apply IZR_le. lia.
  - assert (q1 + 1 <= q2)%Z as Hq' by lia. apply IZR_le in Hq'. rewrite plus_IZR in Hq'.
    assert (rnd (IZR r1 / IZR K) <= 1).
    { rewrite <- (rnd_fmt 1); [|apply (fmt_int 1); lia]. apply rnd_le. assert (IZR r1 <= IZR K) by (apply IZR_le; lia).
      apply Rmult_le_reg_r with (IZR K); [lra|]. unfold Rdiv. rewrite Rmult_assoc, Rinv_l by lra. lra. }
    assert (0 <= rnd (IZR r2 / IZR K)); [|lra]. rewrite <- rnd_0. apply rnd_le. apply Rmult_le_pos; [apply IZR_le; lia|lra].
Qed.

Lemma sec_mono d1 d2 : in64 d1 -> in64 d2 -> (d1 <= d2)%Z -> sec_r d1 <= sec_r d2.
Proof.
  intros I1 I2 H. destruct (Z_le_gt_dec 0%Z d1) as [H1|H1]; [apply sec_mono_pos; lia|].
  destruct (Z_le_gt_dec 0%Z d2) as [H2|H2].
  - destruct (sec_sign d1 I1) as (_ & S1 & _). assert (sec_r d1 < 0) by (apply S1; lia).
    assert (0 <= sec_r d2); [|lra]. destruct (Z.eq_dec d2 0%Z) as [->|].
    + destruct (sec_sign 0 ltac:(unfold in64; lia)) as (_ & _ & S). rewrite (proj2 S eq_refl). lra.
    + left. apply (proj1 (sec_sign d2 I2)). lia.
  - pose proof (sec_mono_pos (- d2) (- d1) ltac:(lia)) as M. rewrite !sec_opp in M. lra.
Qed.

(** Up to 2*10^15 nanoseconds (23 days) the nanoseconds can be read back. *)
Lemma sec_back d : (Z.abs d <= 2000000000000000)%Z -> Rabs (sec_r d * 1000000000 - IZR d) < / 2.
Proof.
  intros Hd. pose proof (sec_close d ltac:(unfold in64; lia)) as H. pose proof c_small as Hc.
  replace (sec_r d * 1000000000 - IZR d) with ((sec_r d - IZR d / IZR K) * IZR K) by (field_simplify; lra || field).
  rewrite Rabs_mult, (Rabs_pos_eq (IZR K)) by lra.
  assert (Rabs (IZR d / IZR K) <= 2000000).
  { unfold Rdiv. rewrite Rabs_mult, <- abs_IZR, (Rabs_pos_eq (/ IZR K)) by lra. apply IZR_le in Hd.
    apply Rmult_le_reg_r with (IZR K); [lra|]. rewrite Rmult_assoc, Rinv_l by lra. lra. }
  assert ((pow2 (-52) + pow2 (-106)) * Rabs (IZR d / IZR K) <= / 4503599627370495 * 2000000); [|lra].
  apply Rmult_le_compat; [|apply Rabs_pos|exact Hc|assumption].
  pose proof (bpow_gt_0 radix2 (-52)). pose proof (bpow_gt_0 radix2 (-106)). lra.
Qed.

Lemma sec_inj d1 d2 : (Z.abs d1 <= 2000000000000000)%Z -> (Z.abs d2 <= 2000000000000000)%Z -> sec_r d1 = sec_r d2 -> d1 = d2.
Proof.
  intros H1 H2 E. apply sec_back in H1, H2. rewrite E in H1. apply Rabs_lt_inv in H1, H2.
  assert (-1 < IZR (d1 - d2) < 1) as [A B] by (rewrite minus_IZR; lra). apply (lt_IZR (-1)) in A. apply (lt_IZR _ 1) in B. lia.
Qed.

(** ** Rates *)
Lemma ltb_zero (x : f64) : is_finite x = true -> Bltb (B754_zero false) x = Rlt_bool 0 (B2R x).
Proof. intros H. rewrite Bltb_correct by (reflexivity || exact H). reflexivity. Qed.

Lemma sec_test d : in64 d -> Bltb (B754_zero false) (seconds d) = (0 <? d)%Z.
Proof.
  intros Hd. destruct (seconds_value d Hd) as [F E]. rewrite ltb_zero, E by exact F. destruct (sec_sign d Hd) as (S & _ & _).
  destruct (Z.ltb_spec 0 d) as [H|H].
  - apply Rlt_bool_true, S, H.
  - apply Rlt_bool_false. apply Rnot_lt_le. intros H'. apply S in H'. lia.
Qed.

Lemma sec_lower d : in64 d -> (0 < d)%Z -> / 2000000000 <= sec_r d.
Proof.
  intros Hd H0. pose proof (sec_close d Hd) as H. pose proof c_small as Hc. assert (1 <= IZR d) as H1 by (apply (IZR_le 1); lia).
  assert (/ 1000000000 <= IZR d / IZR K) as H2 by (unfold Rdiv; lra). rewrite (Rabs_pos_eq (IZR d / IZR K)) in H by lra.
  assert ((pow2 (-52) + pow2 (-106)) * (IZR d / IZR K) <= / 4503599627370495 * (IZR d / IZR K)) by (apply Rmult_le_compat_r; lra).
  apply Rabs_le_inv in H. lra.
Qed.

Definition rate_r (c d : Z) : R := rnd (rnd (IZR c) / sec_r d).

Lemma rate_quot_bound c d : in64 c -> in64 d -> (0 < d)%Z -> Rabs (rnd (IZR c) / sec_r d) <= pow2 100.
Proof.
  intros Hc Hd H0. pose proof (sec_lower d Hd H0) as HL. unfold Rdiv. rewrite Rabs_mult.
  assert (Rabs (rnd (IZR c)) <= pow2 63).
  { apply abs_round_le_generic; auto with typeclass_instances; [apply fmt_pow; lia|apply in64_abs, Hc]. }
  assert (Rabs (/ sec_r d) <= pow2 31).
  { rewrite Rabs_pos_eq by (left; apply Rinv_0_lt_compat; lra). apply Rle_trans with (/ / 2000000000).
    - apply Rinv_le; lra.
    - change (pow2 31) with 2147483648. lra. }
  apply Rle_trans with (pow2 63 * pow2 31).
  - apply Rmult_le_compat; auto using Rabs_pos.
  - rewrite <- bpow_plus. apply bpow_le. lia.
Qed.

Lemma ratio_value c d : in64 c -> in64 d -> (0 < d)%Z ->
  is_finite (Bdiv mode_NE (int64_64 c) (seconds d)) = true /\ B2R (Bdiv mode_NE (int64_64 c) (seconds d)) = rate_r c d.
Proof.
  intros Hc Hd H0. destruct (seconds_value d Hd) as [F1 E1]. destruct (int_value c Hc) as [F2 E2].
  pose proof (Bdiv_correct 53 1024 prec53 emax1024 mode_NE (int64_64 c) (seconds d)) as C. cbn [round_mode] in C. rewrite E1, E2 in C.
  rewrite small_finite in C.
  - destruct C as (C1 & C2 & _); [pose proof (sec_lower d Hd H0); lra|]. rewrite F2 in C2. auto.
  - apply Rle_trans with (1 := rate_quot_bound c d Hc Hd H0). apply bpow_le. lia.
Qed.

Lemma rate_value c d : in64 c -> in64 d -> (0 < d)%Z -> is_finite (rate c d) = true /\ B2R (rate c d) = rate_r c d.
Proof. intros Hc Hd H0. unfold rate. rewrite sec_test by exact Hd. rewrite (proj2 (Z.ltb_lt 0 d) H0). by apply ratio_value. Qed.

Lemma rate_zero c d : in64 d -> (d <= 0)%Z -> rate c d = B754_zero false.
Proof. intros Hd H. unfold rate. rewrite sec_test by exact Hd. by rewrite (proj2 (Z.ltb_ge 0 d) H). Qed.

Lemma rel_quot a b e f : b <> 0 -> Rabs e <= / 4503599627370495 -> Rabs f <= / 4503599627370495 ->
  Rabs (a * (1 + e) / (b * (1 + f)) - a / b) <= (Rabs e + Rabs f) * (1 + / 4503599627370400) * Rabs (a / b).
Proof.
  intros Hb He Hf. assert (0 < 1 + f) as Hp by (apply Rabs_le_inv in Hf; lra).
  replace (a * (1 + e) / (b * (1 + f)) - a / b) with ((e - f) * / (1 + f) * (a / b)) by (field; lra).
  rewrite !Rabs_mult. apply Rmult_le_compat_r; [apply Rabs_pos|]. apply Rmult_le_compat; [apply Rabs_pos|apply Rabs_pos| |].
  - apply Rle_trans with (1 := Rabs_triang _ _). rewrite Rabs_Ropp. lra.
  - rewrite Rabs_pos_eq by (left; apply Rinv_0_lt_compat; lra). apply Rmult_le_reg_r with (1 + f); [lra|]. rewrite Rinv_l by lra.
    apply Rabs_le_inv in Hf. nra.
Qed.

Lemma close_factor x y c : Rabs (y - x) <= c * Rabs x -> x <> 0 -> exists f, Rabs f <= c /\ y = x * (1 + f).
Proof.
  intros H Hx. exists ((y - x) / x). split; [|field; exact Hx]. unfold Rdiv. rewrite Rabs_mult, Rabs_inv.
  pose proof (Rabs_pos_lt x Hx). apply Rmult_le_reg_r with (Rabs x); [assumption|]. rewrite Rmult_assoc, Rinv_l by lra. lra.
Qed.

Lemma rate_close c d : in64 c -> in64 d -> (0 < d)%Z ->
  Rabs (rate_r c d - IZR c / (IZR d / IZR K)) <= pow2 (-50) * Rabs (IZR c / (IZR d / IZR K)).
Proof.
  intros Hc Hd H0. pose proof (sec_lower d Hd H0) as HL. assert (0 < IZR d / IZR K) as HP by (apply div_K_sign, H0).
  destruct (close_factor _ _ _ (sec_close d Hd) ltac:(lra)) as (f & Hf & Ef).
  destruct (int_err c Hc) as (e & He & Ee). rewrite (proj2 (int_value c Hc)) in Ee.
  unfold rate_r. destruct (rnd_err (rnd (IZR c) / sec_r d)) as (g & Hg & Eg).
  { destruct (int_cases c) as [->|Hn]; [left; rewrite rnd_0; unfold Rdiv; lra|right].
    assert (1 <= Rabs (rnd (IZR c))).
    { apply abs_round_ge_generic; auto with typeclass_instances. apply (fmt_int 1). lia. }
    assert (sec_r d <= 17179869184).
    { pose proof (sec_bounds d ltac:(unfold in64 in Hd; lia)) as [B1 B2]. unfold sec_r.
      rewrite <- (rnd_fmt 17179869184); [|apply (fmt_int 17179869184); lia]. apply rnd_le.
      assert (Rabs (rnd (IZR (Z.rem d K) / IZR K)) <= 1) as R1 by (apply rnd_abs_1, rem_ratio; unfold in64 in Hd; lia).
      assert (Z.abs (Z.quot d K) <= 9223372037)%Z as B3.
      { unfold in64 in Hd. pose proof (sec_parts d). lia. }
      apply Rabs_le_inv in R1. assert (IZR (Z.quot d K) <= 9223372037) by (apply IZR_le; lia). lra. }
    unfold Rdiv. rewrite Rabs_mult, (Rabs_pos_eq (/ sec_r d)) by (left; apply Rinv_0_lt_compat; lra).
    pose proof pow_small. apply Rle_trans with (1 * / 17179869184); [lra|].
    apply Rmult_le_compat; [lra|lra|assumption|]. apply Rinv_le; lra. }
  rewrite Eg, Ee, Ef. set (a := IZR c) in *. set (b := IZR d / IZR K) in *. clearbody a b.
  pose proof c_small. assert (Rabs f <= / 4503599627370495) as Hf' by lra. rewrite u_val in He, Hg.
  pose proof (rel_quot a b e f ltac:(lra) ltac:(lra) Hf') as Q. set (x := a * (1 + e) / (b * (1 + f))) in *. set (y := a / b) in *. clearbody x y.
  pose proof (Rabs_pos y) as Hy.
  assert (Rabs (x - y) <= / 1501199875790165 * Rabs y) as Q'.
  { apply Rle_trans with (1 := Q). apply Rmult_le_compat_r; [exact Hy|]. pose proof (Rabs_pos e). pose proof (Rabs_pos f). nra. }
  replace (x * (1 + g) - y) with ((x - y) * (1 + g) + g * y) by ring. apply Rle_trans with (1 := Rabs_triang _ _).
  rewrite !Rabs_mult. assert (Rabs (1 + g) <= 1 + / 9007199254740992) by (pose proof (Rabs_triang 1 g); rewrite Rabs_R1 in *; lra).
  assert (Rabs (x - y) * Rabs (1 + g) <= (/ 1501199875790165 * Rabs y) * (1 + / 9007199254740992)).
  { apply Rmult_le_compat; auto using Rabs_pos. }
  assert (Rabs g * Rabs y <= / 9007199254740992 * Rabs y) by (apply Rmult_le_compat_r; lra).
  change (pow2 (-50)) with (/ 1125899906842624). lra.
Qed.

Lemma rate_sign c d : in64 c -> in64 d -> (0 < d)%Z -> same_sign (rate_r c d) (IZR c).
Proof.
  intros Hc Hd H0. pose proof (rate_close c d Hc Hd H0) as H. assert (0 < IZR d / IZR K) as HP by (apply div_K_sign, H0).
  destruct (close_sign (IZR c / (IZR d / IZR K)) (rate_r c d)) as (A & B & C).
  { apply Rle_trans with (1 := H). apply Rmult_le_compat_r; [apply Rabs_pos|]. change (pow2 (-50)) with (/ 1125899906842624). lra. }
  assert (IZR c / (IZR d / IZR K) * (IZR d / IZR K) = IZR c) as E by (field; lra).
  set (b := IZR d / IZR K) in *. set (q := IZR c / b) in *. clearbody q b.
  unfold same_sign. rewrite <- A, <- B, <- C, <- E. repeat split; intros; nra.
Qed.

Lemma rate_mono c1 c2 d : in64 c1 -> in64 c2 -> in64 d -> (0 < d)%Z -> (c1 <= c2)%Z -> rate_r c1 d <= rate_r c2 d.
Proof.
  intros H1 H2 Hd H0 H. pose proof (sec_lower d Hd H0). apply rnd_le. apply Rmult_le_compat_r.
  - left. apply Rinv_0_lt_compat. lra.
  - apply rnd_le, IZR_le, H.
Qed.

Lemma rate_anti c d1 d2 : (0 <= c)%Z -> in64 c -> in64 d1 -> in64 d2 -> (0 < d1 <= d2)%Z -> rate_r c d2 <= rate_r c d1.
Proof.
  intros Hc Hc' H1 H2 [H0 H]. pose proof (sec_lower d1 H1 H0). pose proof (sec_mono d1 d2 H1 H2 H). apply rnd_le. apply Rmult_le_compat_l.
  - rewrite <- rnd_0. apply rnd_le, IZR_le, Hc.
  - apply Rinv_le; lra.
Qed.

(** ** Differences *)
Lemma minus_value (x y : f64) : is_finite x = true -> is_finite y = true -> Rabs (B2R x - B2R y) <= pow2 1023 ->
  is_finite (difference x y) = true /\ B2R (difference x y) = rnd (B2R x - B2R y).
Proof.
  intros Hx Hy H. pose proof (Bminus_correct 53 1024 prec53 emax1024 mode_NE x y Hx Hy) as C. cbn [round_mode] in C.
  rewrite Rlt_bool_true in C.
  - destruct C as (C1 & C2 & _). auto.
  - apply Rle_lt_trans with (pow2 1023); [|apply bpow_lt; lia].
    apply abs_round_le_generic; auto with typeclass_instances. apply fmt_pow. lia.
Qed.

Lemma minus_sign (x y : f64) : is_finite x = true -> is_finite y = true -> Rabs (B2R x - B2R y) <= pow2 1023 ->
  same_sign (B2R (difference x y)) (B2R x - B2R y).
Proof.
  intros Hx Hy H. destruct (minus_value x y Hx Hy H) as [_ ->].
  assert (B2R x - B2R y <> 0 -> rnd (B2R x - B2R y) <> 0) as N.
  { apply (round_plus_neq_0 radix2 fexp64 ZnearestE (B2R x) (- B2R y));
      first [apply generic_format_B2R|apply generic_format_opp, generic_format_B2R|auto with typeclass_instances]. }
  set (z := B2R x - B2R y) in *. clearbody z. unfold same_sign.
  destruct (Rtotal_order z 0) as [Hz|[Hz|Hz]].
  - assert (rnd z <= 0) by (rewrite <- rnd_0; apply rnd_le; lra). pose proof (N ltac:(lra)). repeat split; intros; lra.
  - subst z. rewrite rnd_0. repeat split; intros; lra.
  - assert (0 <= rnd z) by (rewrite <- rnd_0; apply rnd_le; lra). pose proof (N ltac:(lra)). repeat split; intros; lra.
Qed.

Lemma minus_close (x y : f64) : is_finite x = true -> is_finite y = true -> Rabs (B2R x - B2R y) <= pow2 1023 ->
  Rabs (B2R (difference x y) - (B2R x - B2R y)) <= pow2 (-53) * Rabs (B2R x - B2R y).
Proof.
  intros Hx Hy H. destruct (minus_value x y Hx Hy H) as [_ ->].
  destruct (plus_rel (B2R x) (- B2R y)) as (e & He & E).
  { apply generic_format_B2R. } { apply generic_format_opp, generic_format_B2R. }
  unfold Rminus at 2. rewrite E. apply rel_abs, He.
Qed.

Lemma minus_ints (x y : f64) (a b : Z) : exactly x (IZR a) -> exactly y (IZR b) -> (Z.abs (a - b) <= 2 ^ 53)%Z ->
  exactly (difference x y) (IZR (a - b)).
Proof.
  intros [Hx Ex] [Hy Ey] H. rewrite minus_IZR, <- Ex, <- Ey.
  assert (fmt (B2R x - B2R y)) as F by (rewrite Ex, Ey, <- minus_IZR; apply fmt_int, H).
  destruct (minus_value x y Hx Hy) as [H1 H2].
  - rewrite Ex, Ey, <- minus_IZR, <- abs_IZR. apply Rle_trans with (IZR (2 ^ 53)); [apply IZR_le, H|]. apply (bpow_le radix2 53 1023). lia.
  - split; [exact H1|]. rewrite H2. apply rnd_fmt, F.
Qed.

Lemma minus_sterbenz (x y : f64) : is_finite x = true -> is_finite y = true -> B2R y / 2 <= B2R x <= 2 * B2R y ->
  exactly (difference x y) (B2R x - B2R y).
Proof.
  intros Hx Hy H. assert (fmt (B2R x - B2R y)) as F.
  { apply sterbenz; [exact v64|exact (FLT_exp_monotone (-1074) 53)|apply generic_format_B2R|apply generic_format_B2R|exact H]. }
  pose proof (Bminus_correct 53 1024 prec53 emax1024 mode_NE x y Hx Hy) as C. cbn [round_mode] in C.
  change (round radix2 (SpecFloat.fexp 53 1024) ZnearestE (B2R x - B2R y)) with (rnd (B2R x - B2R y)) in C. rewrite rnd_fmt in C by exact F.
  rewrite Rlt_bool_true in C.
  - destruct C as (C1 & C2 & _). split; assumption.
  - apply Rle_lt_trans with (Rabs (B2R y)); [|apply abs_B2R_lt_emax].
    rewrite (Rabs_pos_eq (B2R y)) by lra. apply Rabs_le. lra.
Qed.

(** ** Meters *)
Lemma other_zero : int64_64 0 = B754_zero false.
Proof. reflexivity. Qed.

Lemma wrap64_in z : in64 (wrap64 z).
Proof. unfold in64, wrap64. pose proof (Z.mod_pos_bound (z + 2 ^ 63) (2 ^ 64) ltac:(lia)). lia. Qed.

Lemma meter_float other t0 h now : exists start,
  head (window (ledger_run t0 h)) = Some start /\
  (in64 (now - snd start) ->
   float_of other (meter_Rate (meter_run t0 h) now) = rate (wrap64 (zsum (map fst (window (ledger_run t0 h))))) (now - snd start)).
Proof.
  destruct (meter_rate_ledger t0 h now) as (o & H1 & H2). exists o. split; [exact H1|]. intros Hd. rewrite H2. unfold rate.
  rewrite sec_test by exact Hd. destruct (0 <? now - snd o)%Z; reflexivity.
Qed.

Lemma diff_close (c1 d1 c2 d2 : Z) : in64 c1 -> in64 d1 -> in64 c2 -> in64 d2 -> (0 < d1)%Z -> (0 < d2)%Z ->
  is_finite (difference (rate c1 d1) (rate c2 d2)) = true /\
  Rabs (B2R (difference (rate c1 d1) (rate c2 d2)) - (IZR c1 / in_seconds d1 - IZR c2 / in_seconds d2))
    <= pow2 (-49) * (Rabs (IZR c1 / in_seconds d1) + Rabs (IZR c2 / in_seconds d2)).
Proof.
  intros Hc1 Hd1 Hc2 Hd2 P1 P2. destruct (rate_value c1 d1 Hc1 Hd1 P1) as [F1 E1]. destruct (rate_value c2 d2 Hc2 Hd2 P2) as [F2 E2].
  pose proof (rate_close c1 d1 Hc1 Hd1 P1) as R1. pose proof (rate_close c2 d2 Hc2 Hd2 P2) as R2. rewrite <- E1 in R1. rewrite <- E2 in R2.
  unfold in_seconds. set (q1 := IZR c1 / (IZR d1 / IZR K)) in *. set (q2 := IZR c2 / (IZR d2 / IZR K)) in *.
  assert (forall c d, in64 c -> in64 d -> (0 < d)%Z -> Rabs (rate_r c d) <= pow2 100) as Bd.
  { intros c d Hc Hd P. apply abs_round_le_generic; auto with typeclass_instances; [apply fmt_pow; lia|by apply rate_quot_bound]. }
  assert (Rabs (B2R (rate c1 d1) - B2R (rate c2 d2)) <= pow2 1023) as Hs.
  { apply Rle_trans with (1 := Rabs_triang _ _). rewrite Rabs_Ropp, E1, E2. pose proof (Bd c1 d1 Hc1 Hd1 P1). pose proof (Bd c2 d2 Hc2 Hd2 P2).
    apply Rle_trans with (pow2 101); [|apply bpow_le; lia]. change (pow2 101) with (pow2 (1 + 100)). rewrite bpow_plus. change (pow2 1) with 2. lra. }
  destruct (minus_value _ _ F1 F2 Hs) as [H1 _]. split; [exact H1|]. pose proof (minus_close _ _ F1 F2 Hs) as M.
  set (x := B2R (rate c1 d1)) in *. set (y := B2R (rate c2 d2)) in *. set (z := B2R (difference _ _)) in *. clearbody x y z q1 q2.
  rewrite u_val in M. change (pow2 (-50)) with (/ 1125899906842624) in *. change (pow2 (-49)) with (/ 562949953421312).
  assert (Rabs (x - y) <= (1 + / 1125899906842624) * (Rabs q1 + Rabs q2)).
  { replace (x - y) with ((x - q1) + - (y - q2) + (q1 + - q2)) by ring.
    apply Rle_trans with (1 := Rabs_triang _ _). pose proof (Rabs_triang (x - q1) (- (y - q2))). pose proof (Rabs_triang q1 (- q2)).
    rewrite !Rabs_Ropp in *. lra. }
  replace (z - (q1 - q2)) with ((z - (x - y)) + ((x - q1) + - (y - q2))) by ring. apply Rle_trans with (1 := Rabs_triang _ _).
  pose proof (Rabs_triang (x - q1) (- (y - q2))). rewrite !Rabs_Ropp in *. pose proof (Rabs_pos q1). pose proof (Rabs_pos q2). lra.
Qed.

(** ** The theorems *)
Lemma same_sign_sym x y : same_sign x y -> same_sign y x.
Proof. unfold same_sign. tauto. Qed.

Lemma integers (z : Z) : in64 z ->
  exactly (int64_64 z) (nearest (IZR z)) /\ about (bpow radix2 (-53)) (int64_64 z) (IZR z) /\
  ((Z.abs z <= 2 ^ 53)%Z -> exactly (int64_64 z) (IZR z)) /\
  same_sign (B2R (int64_64 z)) (IZR z) /\
  (forall z' : Z, in64 z' -> (z <= z')%Z -> B2R (int64_64 z) <= B2R (int64_64 z')).
Proof.
  intros Hz. destruct (int_value z Hz) as [F E]. destruct (int_err z Hz) as (e & He & Ee).
  assert (Rabs (B2R (int64_64 z) - IZR z) <= pow2 (-53) * Rabs (IZR z)) as Hc by (rewrite Ee; apply rel_abs, He).
  split_and!.
  - exact (conj F E).
  - exact (conj F Hc).
  - apply int_exact.
  - apply same_sign_sym. apply close_sign. apply Rle_trans with (1 := Hc). apply Rmult_le_compat_r; [apply Rabs_pos|]. rewrite u_val. lra.
  - intros z' Hz' H. by apply int_mono.
Qed.

Lemma same_sf (x y : f64) : B2SF x = B2SF y -> x = y.
Proof. apply B2SF_inj. Qed.

Lemma integers_refuted : exists z : Z,
  in64 (z + 1) /\ int64_64 z = int64_64 (z + 1) /\ exactly (difference (int64_64 (z + 1)) (int64_64 z)) 0.
Proof.
  exists (2 ^ 53)%Z. split_and!; [unfold in64; lia|apply same_sf; vm_compute; reflexivity|].
  assert (difference (int64_64 (2 ^ 53 + 1)) (int64_64 (2 ^ 53)) = B754_zero false) as -> by (apply same_sf; vm_compute; reflexivity).
  split; reflexivity.
Qed.

Lemma seconds_spec (d : Z) : in64 d ->
  about (bpow radix2 (-52) + bpow radix2 (-106)) (seconds d) (in_seconds d) /\
  same_sign (B2R (seconds d)) (IZR d) /\
  (forall d' : Z, in64 d' -> (d <= d')%Z -> B2R (seconds d) <= B2R (seconds d')) /\
  ((Z.rem d 1000000000 = 0)%Z -> exactly (seconds d) (in_seconds d)).
Proof.
  intros Hd. destruct (seconds_value d Hd) as [F E]. split_and!.
  - split; [exact F|]. rewrite E. apply sec_close, Hd.
  - rewrite E. destruct (sec_sign d Hd) as (A & B & C). unfold same_sign. rewrite A, B, C.
    split_and!; split; intros H.
    + by apply (IZR_lt 0 d).
    + by apply (lt_IZR 0 d).
    + by apply (IZR_lt d 0).
    + by apply (lt_IZR d 0).
    + by subst d.
    + by apply (eq_IZR d 0).
  - intros d' Hd' H. destruct (seconds_value d' Hd') as [_ E']. rewrite E, E'. by apply sec_mono.
  - intros H. split; [exact F|]. rewrite E. unfold in_seconds. rewrite sec_exact. unfold sec_r. rewrite H.
    replace (0 / IZR K) with 0 by (unfold Rdiv; ring). rewrite rnd_0, Rplus_0_r. apply rnd_fmt, fmt_int.
    destruct (sec_bounds d ltac:(unfold in64 in Hd; lia)). lia.
Qed.

Lemma seconds_back (d : Z) : (Z.abs d <= 2000000000000000)%Z ->
  Rabs (B2R (seconds d) * 1000000000 - IZR d) < / 2 /\
  (forall d' : Z, (Z.abs d' <= 2000000000000000)%Z -> seconds d' = seconds d -> d' = d).
Proof.
  intros Hd. assert (in64 d) as Hi by (unfold in64; lia). destruct (seconds_value d Hi) as [_ E]. rewrite E. split; [apply sec_back, Hd|].
  intros d' Hd' Es. assert (in64 d') as Hi' by (unfold in64; lia). destruct (seconds_value d' Hi') as [_ E'].
  apply sec_inj; [exact Hd'|exact Hd|]. rewrite <- E, <- E', Es. reflexivity.
Qed.

Lemma rate_spec (c d : Z) : in64 c -> in64 d ->
  ((0 < d)%Z -> about (bpow radix2 (-50)) (rate c d) (IZR c / in_seconds d) /\ same_sign (B2R (rate c d)) (IZR c)) /\
  ((d <= 0)%Z -> exactly (rate c d) 0).
Proof.
  intros Hc Hd. split.
  - intros H. destruct (rate_value c d Hc Hd H) as [F E]. split.
    + split; [exact F|]. rewrite E. by apply rate_close.
    + rewrite E. by apply rate_sign.
  - intros H. rewrite rate_zero by assumption. split; reflexivity.
Qed.

Lemma rate_ordered (c c' d d' : Z) : in64 c -> in64 c' -> in64 d -> in64 d' ->
  (0 <= c <= c')%Z -> (0 < d' <= d)%Z -> B2R (rate c d) <= B2R (rate c' d').
Proof.
  intros H1 H2 H3 H4 Hc Hd. rewrite (proj2 (rate_value c d H1 H3 ltac:(lia))), (proj2 (rate_value c' d' H2 H4 ltac:(lia))).
  apply Rle_trans with (rate_r c d'); [apply rate_anti|apply rate_mono]; first [assumption|lia].
Qed.

Lemma meter_spec other t0 h now : exists start,
  head (window (ledger_run t0 h)) = Some start /\
  let age := (now - snd start)%Z in
  let marks := wrap64 (zsum (map fst (window (ledger_run t0 h)))) in
  let reported := float_of other (meter_Rate (meter_run t0 h) now) in
  in64 age ->
  reported = rate marks age /\
  ((0 < age)%Z -> about (bpow radix2 (-50)) reported (IZR marks / in_seconds age)) /\ ((age <= 0)%Z -> exactly reported 0).
Proof.
  destruct (meter_float other t0 h now) as (start & H1 & H2). exists start. split; [exact H1|]. cbv zeta. intros Hd. rewrite H2 by exact Hd.
  destruct (rate_spec (wrap64 (zsum (map fst (window (ledger_run t0 h))))) (now - snd start) (wrap64_in _) Hd) as [A B].
  split; [reflexivity|]. split; [intros H; apply A, H|exact B].
Qed.

Lemma difference_spec (x y : f64) : is_finite x = true -> is_finite y = true ->
  Rabs (B2R x - B2R y) <= bpow radix2 1023 ->
  exactly (difference x y) (nearest (B2R x - B2R y)) /\
  about (bpow radix2 (-53)) (difference x y) (B2R x - B2R y) /\
  same_sign (B2R (difference x y)) (B2R x - B2R y).
Proof.
  intros Hx Hy H. destruct (minus_value x y Hx Hy H) as [F E]. split_and!.
  - exact (conj F E).
  - split; [exact F|]. by apply minus_close.
  - by apply minus_sign.
Qed.

Lemma difference_exact :
  (forall (x y : f64) (a b : Z), exactly x (IZR a) -> exactly y (IZR b) -> (Z.abs (a - b) <= 2 ^ 53)%Z ->
     exactly (difference x y) (IZR (a - b))) /\
  (forall x y : f64, is_finite x = true -> is_finite y = true -> B2R y / 2 <= B2R x <= 2 * B2R y ->
     exactly (difference x y) (B2R x - B2R y)).
Proof. split; [exact minus_ints|exact minus_sterbenz]. Qed.

Lemma rate_example : exactly (rate 7 2000000000) (7 / 2).
Proof.
  assert (rate 7 2000000000 = Bdiv mode_NE (int64_64 7) (int64_64 2)) as -> by (apply same_sf; vm_compute; reflexivity).
  destruct (int_exact 7) as [F1 E1]; [lia|]. destruct (int_exact 2) as [F2 E2]; [lia|].
  pose proof (Bdiv_correct 53 1024 prec53 emax1024 mode_NE (int64_64 7) (int64_64 2)) as C. cbn [round_mode] in C. rewrite E1, E2 in C.
  assert (rnd (7 / 2) = 7 / 2) as ER.
  { apply rnd_fmt. replace (7 / 2) with (F2R (Float radix2 7 (-1))) by (unfold F2R; cbn [Fnum Fexp]; change (pow2 (-1)) with (/ 2); lra).
    apply (generic_format_FLT radix2 (-1074) 53). exists (Float radix2 7 (-1)); [reflexivity|cbn; lia|cbn; lia]. }
  rewrite small_finite in C.
  - destruct C as (C1 & C2 & _); [lra|]. rewrite F1 in C2. split; [exact C2|]. rewrite C1. exact ER.
  - rewrite Rabs_pos_eq by lra. apply Rle_trans with (pow2 2); [change (pow2 2) with 4; lra|apply bpow_le; lia].
Qed.

Lemma seconds_back_refuted : exists d : Z,
  (0 < d <= 8388609 * 1000000000)%Z /\ seconds d = seconds (d + 1).
Proof. exists (8388608 * 1000000000 + 1)%Z. split; [lia|]. apply same_sf. vm_compute. reflexivity. Qed.
