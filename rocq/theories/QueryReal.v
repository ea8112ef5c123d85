(** Facts about rounding to float64 that Query's arithmetic needs. *)
From Coq Require Import Reals ZArith Lra Lia Psatz.
From Flocq Require Import Core BinarySingleNaN Relative.
Open Scope R_scope.

Notation fexp64 := (SpecFloat.fexp 53 1024).
Notation fexp32 := (SpecFloat.fexp 24 128).
Notation fmt := (generic_format radix2 fexp64).
Notation fmt32 := (generic_format radix2 fexp32).
Notation rnd := (round radix2 fexp64 ZnearestE).
Notation pow2 := (bpow radix2).

Local Instance p53 : Prec_gt_0 53 := eq_refl.
Local Instance p24 : Prec_gt_0 24 := eq_refl.
Local Instance valid64 : Valid_exp fexp64 := fexp_correct 53 1024 p53.
Local Instance valid32 : Valid_exp fexp32 := fexp_correct 24 128 p24.

Lemma fexp64_eq e : fexp64 e = Z.max (e - 53) (-1074).
Proof. reflexivity. Qed.
Lemma fexp32_eq e : fexp32 e = Z.max (e - 24) (-149).
Proof. reflexivity. Qed.
Lemma fmt_pow e : (-1074 <= e)%Z -> fmt (pow2 e).
Proof. intros H. apply generic_format_bpow. rewrite fexp64_eq. lia. Qed.
Lemma fmt_32 x : fmt32 x -> fmt x.
Proof. apply generic_inclusion_mag. intros _. rewrite fexp64_eq, fexp32_eq. lia. Qed.
Lemma fmt_0 : fmt 0.
Proof. apply generic_format_0. Qed.
Lemma fmt_int z : (Z.abs z <= 2 ^ 53)%Z -> fmt (IZR z).
Proof.
  intros H. replace (IZR z) with (F2R (Float radix2 z 0)) by (unfold F2R; cbn; lra).
  destruct (Z.eq_dec (Z.abs z) (2 ^ 53)) as [E|Hne].
  - assert (F2R (Float radix2 z 0) = pow2 53 \/ F2R (Float radix2 z 0) = - pow2 53) as [-> | ->].
    { unfold F2R. cbn [Fnum Fexp]. change (pow2 0) with 1. rewrite Rmult_1_r. change (pow2 53) with (IZR (2 ^ 53)).
      destruct (Z.abs_eq_or_opp z) as [A|A]; [left; f_equal; lia|right]. rewrite <- opp_IZR. f_equal. lia. }
    + apply fmt_pow. lia.
    + apply generic_format_opp, fmt_pow. lia.
  - apply generic_format_FLT with (emin := (-1074)%Z) (prec := 53%Z). exists (Float radix2 z 0); [reflexivity| |cbn; lia].
    cbn. lia.
Qed.
Lemma rnd_le x y : x <= y -> rnd x <= rnd y.
Proof. apply round_le; auto with typeclass_instances. Qed.
Lemma rnd_fmt x : fmt x -> rnd x = x.
Proof. apply round_generic; auto with typeclass_instances. Qed.
Lemma rnd_0 : rnd 0 = 0.
Proof. apply rnd_fmt, fmt_0. Qed.

(** A value smaller than [m] by the smallest factor rounds below [m]. *)
Lemma rnd_below m x : fmt m -> pow2 (-1000) <= m -> x <= m * (1 - pow2 (-53)) -> rnd x <= pred radix2 fexp64 m.
Proof.
  intros Fm Hm Hx. assert (0 < m) by (pose proof (bpow_gt_0 radix2 (-1000)); lra).
  pose proof (bpow_gt_0 radix2 (-53)).
  destruct (mag radix2 m) as (e & He) eqn:Em. assert (He' : pow2 (e - 1) <= m < pow2 e).
  { rewrite <- (Rabs_pos_eq m) by lra. apply He. lra. }
  assert (Emag : (mag radix2 m : Z) = e) by (rewrite Em; reflexivity).
  assert (Hle : (-1000 < e)%Z). { apply (lt_bpow radix2). lra. }
  rewrite (pred_eq_pos radix2 fexp64 m) by lra. unfold pred_pos. rewrite Emag.
  destruct (Req_bool_spec m (pow2 (e - 1))) as [E|Hne].
  - rewrite fexp64_eq. rewrite Z.max_l by lia.
    assert (Fp : fmt (m - pow2 (e - 1 - 53))).
    { replace (m - pow2 (e - 1 - 53)) with (pred radix2 fexp64 (pow2 (e - 1))).
      - apply generic_format_pred; [auto with typeclass_instances|]. apply fmt_pow. lia.
      - rewrite pred_bpow, fexp64_eq, Z.max_l by lia. lra. }
    rewrite <- (rnd_fmt (m - pow2 (e - 1 - 53)) Fp). apply rnd_le.
    assert (pow2 (e - 1 - 53) = m * pow2 (-53)) as ->. { rewrite E, <- bpow_plus. reflexivity. } lra.
  - assert (Hu : ulp radix2 fexp64 m = pow2 (e - 53)).
    { rewrite ulp_neq_0 by lra. unfold cexp. rewrite Emag, fexp64_eq, Z.max_l by lia. reflexivity. }
    assert (Hp : pred radix2 fexp64 m = m - ulp radix2 fexp64 m).
    { rewrite (pred_eq_pos radix2 fexp64 m) by lra. unfold pred_pos. rewrite Emag. rewrite Req_bool_false by exact Hne. reflexivity. }
    rewrite <- Hp. apply round_N_le_midp; [auto with typeclass_instances|apply generic_format_pred; auto with typeclass_instances|].
    rewrite succ_pred by auto with typeclass_instances. rewrite Hp, Hu.
    assert (pow2 (e - 53) = 2 * (pow2 (e - 1) * pow2 (-53))).
    { rewrite <- bpow_plus. change 2 with (pow2 1). rewrite <- bpow_plus. f_equal. lia. }
    assert (pow2 (e - 1) * pow2 (-53) < m * pow2 (-53)) by (apply Rmult_lt_compat_r; lra). lra.
Qed.

(** Rounding is off by less than that factor. *)
Lemma rnd_rel x : pow2 (-1000) <= x -> rnd x * (1 - pow2 (-53)) <= x.
Proof.
  intros Hx. pose proof (bpow_gt_0 radix2 (-1000)). pose proof (bpow_gt_0 radix2 (-53)).
  assert (Hr : Rabs (rnd x - x) <= / 2 * pow2 (-53 + 1) * Rabs x).
  { apply (relative_error_N_FLT radix2 (-1074) 53); [lia|]. rewrite Rabs_pos_eq by lra. apply Rle_trans with (2 := Hx). apply bpow_le. lia. }
  rewrite (Rabs_pos_eq x) in Hr by lra.
  assert (/ 2 * pow2 (-53 + 1) = pow2 (-53)) as E. { rewrite bpow_plus. change (pow2 1) with 2. lra. }
  rewrite E in Hr. apply Rabs_le_inv in Hr. assert (pow2 (-53) <= 1) by (apply (bpow_le radix2 (-53) 0); lia). nra.
Qed.

Lemma below_1 q : fmt q -> q < 1 -> q <= 1 - pow2 (-53).
Proof.
  intros Fq Hq. apply (pred_ge_gt radix2 fexp64) in Hq; [|exact Fq|exact (fmt_pow 0 ltac:(lia))].
  change 1 with (pow2 0) in Hq. rewrite pred_bpow in Hq. exact Hq.
Qed.

(** idx_float stays below rlen-1. *)
Lemma idx_range q k : fmt q -> 0 < q < 1 -> (1 <= k <= 63)%Z -> 0 <= rnd (q * IZR k) < IZR k.
Proof.
  intros Fq Hq Hk. assert (1 <= IZR k) by (apply IZR_le; lia). split.
  - rewrite <- rnd_0. apply rnd_le. nra.
  - pose proof (below_1 q Fq (proj2 Hq)) as Hb.
    assert (Fk : fmt (IZR k)) by (apply fmt_int; lia).
    assert (pow2 (-1000) <= IZR k). { apply Rle_trans with (2 := H). apply (bpow_le radix2 (-1000) 0). lia. }
    apply Rle_lt_trans with (pred radix2 fexp64 (IZR k)).
    + apply rnd_below; auto. rewrite Rmult_comm. apply Rmult_le_compat_l; lra.
    + apply pred_lt_id. lra.
Qed.

(** The fractional part of a float64 is a float64. *)
Lemma fraction_fmt x : FLT_format radix2 (-1074) 53 x -> 0 <= x -> fmt (x - IZR (Zfloor x)).
Proof.
  intros [[M e] E HM He] Hx. cbn [Fnum Fexp] in *.
  assert (0 <= M)%Z. { apply (le_F2R radix2 e). rewrite <- E. unfold F2R. cbn. lra. }
  destruct (Z_le_gt_dec 0 e) as [Hp|Hn].
  - assert (x = IZR (M * 2 ^ e)) as ->.
    { rewrite E. unfold F2R. cbn [Fnum Fexp]. rewrite mult_IZR. f_equal. rewrite <- (IZR_Zpower radix2) by lia. reflexivity. }
    rewrite Zfloor_IZR. replace (_ - _) with 0 by lra. apply fmt_0.
  - apply (generic_format_FLT radix2 (-1074) 53). exists (Float radix2 (M - Zfloor x * 2 ^ (- e)) e).
    + rewrite E at 1. unfold F2R. cbn [Fnum Fexp]. rewrite minus_IZR, mult_IZR.
      assert (IZR (2 ^ (- e)) * pow2 e = 1). { rewrite (IZR_Zpower radix2) by lia. rewrite <- bpow_plus. replace (- e + e)%Z with 0%Z by lia. reflexivity. }
      rewrite Rmult_minus_distr_r. rewrite Rmult_assoc, H0. lra.
    + cbn [Fnum]. assert (0 <= Zfloor x)%Z by (apply Zfloor_lub; exact Hx).
      assert (Zfloor x * 2 ^ (- e) <= M)%Z.
      { apply le_IZR. rewrite mult_IZR, (IZR_Zpower radix2) by lia. pose proof (Zfloor_lb x) as Hf. rewrite E in Hf at 2. unfold F2R in Hf. cbn [Fnum Fexp] in Hf.
        pose proof (bpow_gt_0 radix2 (- e)). assert (pow2 e * pow2 (- e) = 1) by (rewrite <- bpow_plus; replace (e + - e)%Z with 0%Z by lia; reflexivity).
        replace (IZR M) with (IZR M * pow2 e * pow2 (- e)) by (rewrite Rmult_assoc, H2; lra). apply Rmult_le_compat_r; lra. }
      assert (0 <= Zfloor x * 2 ^ (- e))%Z by (apply Z.mul_nonneg_nonneg; [lia|apply Z.pow_nonneg; lia]). lia.
    + exact He.
Qed.

(** The interpolation stays between its two elements. *)
Section between.
  Variables (prior next diff : R).
  Hypothesis Fp : fmt prior.
  Hypothesis Fn : fmt next.
  Hypothesis Hle : prior <= next.
  Hypothesis Hgap : next - prior = 0 \/ pow2 (-1000) <= next - prior.
  Hypothesis Fd : fmt diff.
  Hypothesis Hd : 0 <= diff < 1.

  Lemma delta_pos : 0 <= rnd (next - prior).
  Proof. rewrite <- rnd_0. apply rnd_le. lra. Qed.
  Lemma scaled_fits : diff * rnd (next - prior) <= next - prior.
  Proof.
    pose proof delta_pos. destruct Hgap as [E|H']; [rewrite E, rnd_0; lra|].
    apply Rle_trans with (2 := rnd_rel _ H'). rewrite Rmult_comm. apply Rmult_le_compat_l; [lra|]. apply below_1; lra || assumption.
  Qed.
  Lemma scaled_rounded_fits : rnd (diff * rnd (next - prior)) <= next - prior.
  Proof.
    pose proof delta_pos. destruct Hgap as [E|H']; [rewrite E, rnd_0, Rmult_0_r, rnd_0; lra|].
    apply Rle_trans with (pred radix2 fexp64 (rnd (next - prior))).
    - apply rnd_below.
      + apply generic_format_round; auto with typeclass_instances.
      + rewrite <- (rnd_fmt (pow2 (-1000))); [apply rnd_le, H'|apply fmt_pow; lia].
      + rewrite Rmult_comm. apply Rmult_le_compat_l; [lra|]. apply below_1; lra || assumption.
    - apply pred_round_le_id; auto with typeclass_instances.
  Qed.
  Lemma between_fused : prior <= rnd (diff * rnd (next - prior) + prior) <= next.
  Proof.
    pose proof delta_pos. pose proof scaled_fits. split.
    - rewrite <- (rnd_fmt prior Fp) at 1. apply rnd_le. assert (0 <= diff * rnd (next - prior)) by (apply Rmult_le_pos; lra). lra.
    - rewrite <- (rnd_fmt next Fn) at 2. apply rnd_le. lra.
  Qed.
  Lemma between_plain : prior <= rnd (prior + rnd (diff * rnd (next - prior))) <= next.
  Proof.
    pose proof delta_pos. pose proof scaled_rounded_fits. split.
    - rewrite <- (rnd_fmt prior Fp) at 1. apply rnd_le. assert (0 <= rnd (diff * rnd (next - prior))); [|lra].
      rewrite <- rnd_0. apply rnd_le. apply Rmult_le_pos; lra.
    - rewrite <- (rnd_fmt next Fn) at 2. apply rnd_le. lra.
  Qed.
End between.

Lemma mono_fused prior next d1 d2 : prior <= next -> d1 <= d2 ->
  rnd (d1 * rnd (next - prior) + prior) <= rnd (d2 * rnd (next - prior) + prior).
Proof.
  intros H Hd. apply rnd_le. pose proof (delta_pos prior next H). apply Rplus_le_compat_r, Rmult_le_compat_r; assumption.
Qed.
Lemma mono_plain prior next d1 d2 : prior <= next -> d1 <= d2 ->
  rnd (prior + rnd (d1 * rnd (next - prior))) <= rnd (prior + rnd (d2 * rnd (next - prior))).
Proof.
  intros H Hd. apply rnd_le, Rplus_le_compat_l, rnd_le. pose proof (delta_pos prior next H). apply Rmult_le_compat_r; assumption.
Qed.

(** Two different float32 values are at least the smallest float32 apart. *)
Lemma gap32 x y : FLT_format radix2 (-149) 24 x -> FLT_format radix2 (-149) 24 y -> y <= x -> x - y = 0 \/ pow2 (-1000) <= x - y.
Proof.
  assert (Hk : forall z, FLT_format radix2 (-149) 24 z -> exists k, z = IZR k * pow2 (-149)).
  { intros z [[M e] -> _ He]. cbn [Fexp] in He. exists (M * 2 ^ (e + 149))%Z. unfold F2R. cbn [Fnum Fexp].
    rewrite mult_IZR, (IZR_Zpower radix2) by lia. rewrite Rmult_assoc, <- bpow_plus. do 2 f_equal. lia. }
  intros Hx Hy Hle. destruct (Hk x Hx) as (a & ->), (Hk y Hy) as (b & ->).
  pose proof (bpow_gt_0 radix2 (-149)) as Hp. rewrite <- Rmult_minus_distr_r, <- minus_IZR.
  assert (b <= a)%Z. { apply le_IZR. apply (Rmult_le_reg_r (pow2 (-149))); assumption. }
  destruct (Z.eq_dec a b) as [->|Hne]; [left; rewrite Z.sub_diag; lra|right].
  apply Rle_trans with (1 * pow2 (-149)).
  - rewrite Rmult_1_l. apply bpow_le. lia.
  - apply Rmult_le_compat_r; [lra|]. apply IZR_le. lia.
Qed.

(** The rounding error of one operation, and of the whole interpolation. *)
Lemma rnd_err x : Rabs (rnd x - x) <= pow2 (-53) * Rabs x + pow2 (-1074).
Proof.
  destruct (Rle_lt_dec (pow2 (-1022)) (Rabs x)) as [H|H].
  - pose proof (relative_error_N_FLT radix2 (-1074) 53 ltac:(reflexivity) (fun n => negb (Z.even n)) x H) as E.
    change (FLT_exp (-1074) 53) with fexp64 in E. pose proof (bpow_gt_0 radix2 (-1074)) as P.
    assert (Hh : / 2 * pow2 (- (53) + 1) = pow2 (-53)) by (rewrite (bpow_plus radix2 (-53) 1 : pow2 (- (53) + 1) = _); change (pow2 1) with 2; field).
    rewrite Hh in E. apply Rle_trans with (1 := E). lra.
  - pose proof (error_le_half_ulp radix2 fexp64 (fun n => negb (Z.even n)) x) as E.
    assert (U : ulp radix2 fexp64 x = pow2 (-1074)).
    { apply (ulp_FLT_small radix2 (-1074) 53). apply Rlt_trans with (1 := H). apply bpow_lt. lia. }
    rewrite U in E. pose proof (bpow_gt_0 radix2 (-1074)) as P. pose proof (bpow_gt_0 radix2 (-53)). pose proof (Rabs_pos x).
    assert (0 <= pow2 (-53) * Rabs x) by (apply Rmult_le_pos; lra). lra.
Qed.

Section accuracy.
  Variables (prior next diff : R).
  Hypothesis Fp : fmt prior.
  Hypothesis Fn : fmt next.
  Hypothesis Hle : prior <= next.
  Hypothesis Hgap : next - prior = 0 \/ pow2 (-1000) <= next - prior.
  Hypothesis Fd : fmt diff.
  Hypothesis Hd : 0 <= diff < 1.
  Let S := Rabs prior + Rabs next.
  Local Notation u := (pow2 (-53)).
  Local Notation D := (rnd (next - prior)).

  Lemma tiny_fits : next - prior <> 0 -> pow2 (-1074) <= u * S / 4.
  Proof.
    intros Hne. assert (G : pow2 (-1000) <= S).
    { destruct Hgap as [H|H]; [contradiction|]. apply Rle_trans with (1 := H). unfold S. pose proof (Rle_abs next). pose proof (Rle_abs (- prior)) as A. rewrite Rabs_Ropp in A. lra. }
    assert (E : pow2 (-1074) <= u * pow2 (-1000) / 4).
    { rewrite <- bpow_plus. change (-53 + -1000)%Z with (-1051 + -2)%Z. rewrite bpow_plus. change (pow2 (-2)) with (/ 4).
      apply Rle_trans with (pow2 (-1055)); [apply bpow_le; lia|]. change (-1051)%Z with (-1055 + 4)%Z. rewrite bpow_plus. change (pow2 4) with 16.
      pose proof (bpow_gt_0 radix2 (-1055)). lra. }
    pose proof (bpow_gt_0 radix2 (-53)). assert (u * pow2 (-1000) <= u * S) by (apply Rmult_le_compat_l; lra). lra.
  Qed.
  Lemma delta_le_S : next - prior <= S.
  Proof. unfold S. pose proof (Rle_abs next). pose proof (Rle_abs (- prior)) as A. rewrite Rabs_Ropp in A. lra. Qed.
  Lemma between_S y : prior <= y <= next -> Rabs y <= S.
  Proof. intros H. unfold S. apply Rabs_le. pose proof (Rle_abs next). pose proof (Rle_abs (- prior)) as A. rewrite Rabs_Ropp in A. pose proof (Rabs_pos next). pose proof (Rabs_pos prior). lra. Qed.
  Lemma pow50 : pow2 (-50) = 8 * u.
  Proof. change (-50)%Z with (3 + -53)%Z. rewrite bpow_plus. reflexivity. Qed.
  Lemma u_small : 0 < u <= / 8.
  Proof. split; [apply bpow_gt_0|]. change (/ 8) with (pow2 (-3)). apply bpow_le. lia. Qed.
  Lemma delta_err : next - prior <> 0 -> Rabs (D - (next - prior)) <= u * S * (5 / 4).
  Proof.
    intros Hne. pose proof (rnd_err (next - prior)) as E. rewrite (Rabs_pos_eq (next - prior)) in E by lra. pose proof (tiny_fits Hne). pose proof delta_le_S. pose proof u_small.
    assert (u * (next - prior) <= u * S) by (apply Rmult_le_compat_l; lra). lra.
  Qed.
  Lemma scale_err : next - prior <> 0 -> Rabs (diff * D - diff * (next - prior)) <= u * S * (5 / 4).
  Proof.
    intros Hne. pose proof (delta_err Hne) as E. rewrite <- Rmult_minus_distr_l, Rabs_mult, (Rabs_pos_eq diff) by lra. pose proof (Rabs_pos (D - (next - prior))).
    assert (diff * Rabs (D - (next - prior)) <= 1 * Rabs (D - (next - prior))) by (apply Rmult_le_compat_r; lra). lra.
  Qed.
  Lemma accurate_fused : Rabs (rnd (diff * D + prior) - (prior + diff * (next - prior))) <= pow2 (-50) * S.
  Proof.
    rewrite pow50. destruct (Req_dec (next - prior) 0) as [Hz|Hne].
    - rewrite Hz, rnd_0, Rmult_0_r, Rplus_0_l, Rplus_0_r, (rnd_fmt prior Fp), Rminus_eq_0, Rabs_R0. unfold S. pose proof (Rabs_pos next). pose proof (Rabs_pos prior). pose proof u_small. apply Rmult_le_pos; lra.
    - pose proof (scale_err Hne) as E1. pose proof (rnd_err (diff * D + prior)) as E2. pose proof (tiny_fits Hne) as T. pose proof u_small as U.
      assert (B : Rabs (diff * D + prior) <= S).
      { apply between_S. pose proof (scaled_fits prior next diff Hle Hgap Fd Hd). pose proof (delta_pos prior next Hle). assert (0 <= diff * D) by (apply Rmult_le_pos; lra). lra. }
      assert (u * Rabs (diff * D + prior) <= u * S) by (apply Rmult_le_compat_l; lra).
      assert (0 <= u * S) by (apply Rmult_le_pos; [lra|]; pose proof (Rabs_pos (diff * D + prior)); lra).
      replace (rnd (diff * D + prior) - (prior + diff * (next - prior))) with ((rnd (diff * D + prior) - (diff * D + prior)) + (diff * D - diff * (next - prior))) by ring.
      apply Rle_trans with (1 := Rabs_triang _ _). lra.
  Qed.
  Lemma accurate_plain : Rabs (rnd (prior + rnd (diff * D)) - (prior + diff * (next - prior))) <= pow2 (-50) * S.
  Proof.
    rewrite pow50. destruct (Req_dec (next - prior) 0) as [Hz|Hne].
    - rewrite Hz, rnd_0, Rmult_0_r, rnd_0, !Rplus_0_r, (rnd_fmt prior Fp), Rminus_eq_0, Rabs_R0. unfold S. pose proof (Rabs_pos next). pose proof (Rabs_pos prior). pose proof u_small. apply Rmult_le_pos; lra.
    - pose proof (scale_err Hne) as E1. set (P := rnd (diff * D)). pose proof (rnd_err (prior + P)) as E2. pose proof (rnd_err (diff * D)) as E3. fold P in E3. pose proof (tiny_fits Hne) as T. pose proof u_small as U.
      pose proof (scaled_fits prior next diff Hle Hgap Fd Hd) as Sf. pose proof (delta_pos prior next Hle) as Dp. assert (P0 : 0 <= diff * D) by (apply Rmult_le_pos; lra).
      assert (P1 : 0 <= P) by (unfold P; rewrite <- rnd_0; apply rnd_le, P0). pose proof (scaled_rounded_fits prior next diff Hle Hgap Fd Hd) as Sr. fold P in Sr.
      assert (B : Rabs (prior + P) <= S) by (apply between_S; lra).
      assert (u * Rabs (prior + P) <= u * S) by (apply Rmult_le_compat_l; lra).
      rewrite (Rabs_pos_eq (diff * D)) in E3 by exact P0. pose proof delta_le_S. assert (u * (diff * D) <= u * S) by (apply Rmult_le_compat_l; lra).
      assert (0 <= u * S) by (apply Rmult_le_pos; [lra|]; pose proof (Rabs_pos (prior + P)); lra).
      replace (rnd (prior + P) - (prior + diff * (next - prior))) with ((rnd (prior + P) - (prior + P)) + ((P - diff * D) + (diff * D - diff * (next - prior)))) by ring.
      apply Rle_trans with (1 := Rabs_triang _ _). pose proof (Rabs_triang (P - diff * D) (diff * D - diff * (next - prior))). lra.
  Qed.
End accuracy.
