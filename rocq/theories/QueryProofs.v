(** Proofs about Query's arithmetic. *)
From Coq Require Import Reals Lra Lia.
From Flocq Require Import Core BinarySingleNaN.
From Verif Require Import Base BaseProofs DistModel DistSpec DistProofs QueryReal QueryModel QuerySpec.
Open Scope Z_scope.

(** ** Conversions *)
Lemma small_finite x : (Rabs x <= pow2 200)%R -> Rlt_bool (Rabs (rnd x)) (pow2 1024) = true.
Proof.
  intros H. apply Rlt_bool_true. apply Rle_lt_trans with (pow2 200).
  - apply abs_round_le_generic; auto with typeclass_instances; [exact (fexp_correct 53 1024 prec53)|]. apply fmt_pow. lia.
  - apply bpow_lt. lia.
Qed.
Lemma f32_bound (x : f32) : (Rabs (B2R x) <= pow2 128)%R.
Proof. apply Rlt_le, abs_B2R_lt_emax. Qed.
Lemma f32_fmt (x : f32) : fmt (B2R x).
Proof. apply fmt_32, generic_format_B2R. Qed.
Lemma pow2_200 : (pow2 128 <= pow2 200)%R.
Proof. apply bpow_le. lia. Qed.
Lemma to64_spec (x : f32) : is_finite x = true -> is_finite (to64 x) = true /\ B2R (to64 x) = B2R x.
Proof.
  destruct x as [s|s| |s m e H]; intros Hf; try discriminate; [split; reflexivity|].
  set (x := B754_finite s m e H : f32). change (to64 x) with (binary_normalize 53 1024 prec53 emax1024 mode_NE (cond_Zopp s (Zpos m)) e s).
  pose proof (binary_normalize_correct 53 1024 prec53 emax1024 mode_NE (cond_Zopp s (Zpos m)) e s) as C. cbv zeta in C.
  change (F2R _) with (B2R x) in C. cbn [round_mode] in C.
  rewrite small_finite in C. 2:{ apply Rle_trans with (1 := f32_bound x). apply pow2_200. }
  destruct C as (C1 & C2 & _). split; [exact C2|]. rewrite C1. apply rnd_fmt, f32_fmt.
Qed.
Lemma int64_64_spec z : 0 <= z <= 64 -> is_finite (int64_64 z) = true /\ B2R (int64_64 z) = IZR z.
Proof.
  intros Hz. unfold int64_64.
  pose proof (binary_normalize_correct 53 1024 prec53 emax1024 mode_NE z 0 false) as C. cbv zeta in C. cbn [round_mode] in C.
  assert (E : F2R (Float radix2 z 0) = IZR z) by (unfold F2R; cbn; lra). rewrite E in C.
  rewrite small_finite in C.
  2:{ rewrite <- abs_IZR. apply Rle_trans with (IZR 64); [apply IZR_le; lia|]. apply (bpow_le radix2 6 200). lia. }
  destruct C as (C1 & C2 & _). split; [exact C2|]. rewrite C1. apply rnd_fmt, fmt_int. lia.
Qed.

(** ** One interpolation *)
Definition interp (fused : bool) (prior next diff : R) : R :=
  if fused then rnd (diff * rnd (next - prior) + prior) else rnd (prior + rnd (diff * rnd (next - prior))).
Definition frac (q : R) (k : Z) : R := (rnd (q * IZR k) - IZR (Zfloor (rnd (q * IZR k))))%R.

Lemma muladd_spec fused (diff : f64) (p x : f32) :
  is_finite diff = true -> (0 <= B2R diff < 1)%R -> is_finite p = true -> is_finite x = true -> (B2R p <= B2R x)%R ->
  let r := muladd fused diff (Bminus mode_NE (to64 x) (to64 p)) (to64 p) in
  is_finite r = true /\ B2R r = interp fused (B2R p) (B2R x) (B2R diff) /\ (B2R p <= B2R r <= B2R x)%R /\
  (Rabs (B2R r - (B2R p + B2R diff * (B2R x - B2R p))) <= pow2 (-50) * (Rabs (B2R p) + Rabs (B2R x)))%R.
Proof.
  intros Fd Hd Hp Hx Hle r. destruct (to64_spec p Hp) as [Fp Ep], (to64_spec x Hx) as [Fx Ex].
  assert (Fmd : fmt (B2R diff)) by apply generic_format_B2R.
  assert (Hgap : (B2R x - B2R p = 0 \/ pow2 (-1000) <= B2R x - B2R p)%R).
  { apply gap32; [exact (FLT_format_B2R 24 128 prec24 x)|exact (FLT_format_B2R 24 128 prec24 p)|exact Hle]. }
  pose proof (f32_bound p) as Bp. pose proof (f32_bound x) as Bx. pose proof (f32_fmt p) as Gp. pose proof (f32_fmt x) as Gx.
  assert (Hbig : (pow2 128 + pow2 128 <= pow2 200)%R).
  { replace (pow2 128 + pow2 128)%R with (pow2 129) by (rewrite (bpow_plus radix2 128 1 : pow2 129 = _); change (pow2 1) with 2%R; lra). apply bpow_le. lia. }
  set (delta := Bminus mode_NE (to64 x) (to64 p)) in r.
  assert (D : is_finite delta = true /\ B2R delta = rnd (B2R x - B2R p)).
  { pose proof (Bminus_correct 53 1024 prec53 emax1024 mode_NE (to64 x) (to64 p) Fx Fp) as C. rewrite Ex, Ep in C. cbn [round_mode] in C.
    rewrite small_finite in C. 2:{ apply Rle_trans with (1 := Rabs_triang _ _). rewrite Rabs_Ropp. lra. }
    destruct C as (C1 & C2 & _). split; assumption. }
  destruct D as [Fdelta Edelta]. clearbody delta.
  pose proof (between_fused (B2R p) (B2R x) (B2R diff) Gp Gx Hle Hgap Fmd Hd) as Bf.
  pose proof (between_plain (B2R p) (B2R x) (B2R diff) Gp Gx Hle Hgap Fmd Hd) as Bl.
  pose proof (scaled_fits (B2R p) (B2R x) (B2R diff) Hle Hgap Fmd Hd) as Sf.
  pose proof (scaled_rounded_fits (B2R p) (B2R x) (B2R diff) Hle Hgap Fmd Hd) as Sr.
  pose proof (delta_pos (B2R p) (B2R x) Hle) as Dp.
  pose proof (accurate_fused (B2R p) (B2R x) (B2R diff) Gp Hle Hgap Fmd Hd) as Af.
  pose proof (accurate_plain (B2R p) (B2R x) (B2R diff) Gp Hle Hgap Fmd Hd) as Al.
  assert (P0 : (0 <= B2R diff * rnd (B2R x - B2R p))%R) by (apply Rmult_le_pos; lra).
  assert (P1 : (0 <= rnd (B2R diff * rnd (B2R x - B2R p)))%R) by (rewrite <- rnd_0; apply rnd_le, P0).
  assert (Hbound : forall y, (B2R p <= y <= B2R x)%R -> (Rabs y <= pow2 200)%R).
  { intros y Hy. apply Rabs_le. apply Rabs_le_inv in Bp, Bx. pose proof (bpow_gt_0 radix2 128). lra. }
  unfold r, muladd, interp. destruct fused.
  - pose proof (Bfma_correct 53 1024 prec53 emax1024 mode_NE diff delta (to64 p) Fd Fdelta Fp) as C. cbv zeta in C. rewrite Edelta, Ep in C. cbn [round_mode] in C.
    rewrite small_finite in C. 2:{ apply Hbound. lra. }
    destruct C as (C1 & C2 & _). rewrite C1. auto.
  - pose proof (Bmult_correct 53 1024 prec53 emax1024 mode_NE diff delta) as C. rewrite Edelta in C. cbn [round_mode] in C.
    rewrite small_finite in C.
    2:{ rewrite Rabs_pos_eq by exact P0. apply Rle_trans with (1 := Sf). apply Rabs_le_inv in Bp, Bx. lra. }
    destruct C as (C1 & C2 & _). rewrite Fd, Fdelta in C2. cbn [andb] in C2.
    pose proof (Bplus_correct 53 1024 prec53 emax1024 mode_NE (to64 p) (Bmult mode_NE diff delta) Fp C2) as A. rewrite C1, Ep in A. cbn [round_mode] in A.
    rewrite small_finite in A. 2:{ apply Hbound. lra. }
    destruct A as (A1 & A2 & _). rewrite A1. auto.
Qed.

(** ** The position *)
Lemma position_spec (q : f64) k : is_finite q = true -> (0 < B2R q < 1)%R -> 1 <= k <= 63 ->
  let f := Bmult mode_NE q (int64_64 k) in
  Btrunc f = Zfloor (rnd (B2R q * IZR k)) /\ 0 <= Btrunc f < k /\
  (let diff := Bminus mode_NE f (int64_64 (Btrunc f)) in is_finite diff = true /\ B2R diff = frac (B2R q) k /\ (0 <= frac (B2R q) k < 1)%R).
Proof.
  intros Fq Hq Hk f. destruct (int64_64_spec k ltac:(lia)) as [Fk Ek].
  assert (Gq : fmt (B2R q)) by apply generic_format_B2R.
  pose proof (idx_range (B2R q) k Gq Hq Hk) as Hr.
  assert (K64 : (IZR k <= IZR 63)%R) by (apply IZR_le; lia).
  assert (P6 : (IZR 64 <= pow2 200)%R) by (apply (bpow_le radix2 6 200); lia).
  assert (K1 : (1 <= IZR k)%R) by (apply IZR_le; lia).
  assert (Ff : is_finite f = true /\ B2R f = rnd (B2R q * IZR k)).
  { pose proof (Bmult_correct 53 1024 prec53 emax1024 mode_NE q (int64_64 k)) as C. rewrite Ek in C. cbn [round_mode] in C.
    rewrite small_finite in C. 2:{ rewrite Rabs_pos_eq by (apply Rmult_le_pos; lra). apply Rle_trans with (2 := P6). apply Rle_trans with (1 * IZR k)%R; [apply Rmult_le_compat_r; lra|lra]. }
    destruct C as (C1 & C2 & _). rewrite Fq, Fk in C2. split; [exact C2|exact C1]. }
  destruct Ff as [Ff Ef]. pose proof (FLT_format_B2R 53 1024 prec53 f) as Gf. rewrite Ef in Gf.
  unfold frac. set (X := rnd (B2R q * IZR k)) in *.
  assert (Et : Btrunc f = Zfloor X).
  { apply eq_IZR. rewrite (Btrunc_correct 53 1024 emax1024). rewrite Ef. rewrite round_FIX_IZR. f_equal. apply Ztrunc_floor. lra. }
  assert (Ht : 0 <= Zfloor X < k).
  { split; [apply Zfloor_lub; lra|]. apply lt_IZR. pose proof (Zfloor_lb X). lra. }
  split; [exact Et|]. split; [lia|]. cbv zeta. rewrite Et. destruct (int64_64_spec (Zfloor X) ltac:(lia)) as [Fi Ei].
  assert (Hfr : (0 <= X - IZR (Zfloor X) < 1)%R). { pose proof (Zfloor_lb X). pose proof (Zfloor_ub X). lra. }
  assert (Gd : fmt (X - IZR (Zfloor X))) by (apply fraction_fmt; [exact Gf|lra]).
  pose proof (Bminus_correct 53 1024 prec53 emax1024 mode_NE f (int64_64 (Zfloor X)) Ff Fi) as C. rewrite Ef, Ei in C. cbn [round_mode] in C.
  rewrite small_finite in C. 2:{ rewrite Rabs_pos_eq by lra. apply Rle_trans with (2 := P6). lra. }
  destruct C as (C1 & C2 & _). split; [exact C2|]. split; [|exact Hfr]. rewrite C1. apply rnd_fmt, Gd.
Qed.

(** ** Sorting *)
Definition ascending (s : list f32) : Prop :=
  forall i j x y, (i <= j)%nat -> s !! i = Some x -> s !! j = Some y -> (B2R x <= B2R y)%R.
Definition real_less (x y : f32) : bool := Rlt_bool (B2R x) (B2R y).
Lemma isort_agree l : all_finite l -> isort f32_less l = isort real_less l.
Proof.
  assert (Hs : forall x l, is_finite x = true -> all_finite l -> sinsert f32_less x l = sinsert real_less x l).
  { intros x m Hx Hm. induction Hm as [|y m Hy Hm IH]; [reflexivity|]. cbn [sinsert]. unfold f32_less at 1, real_less at 1.
    rewrite (Bltb_correct 24 128 x y Hx Hy), IH. reflexivity. }
  intros Hl. induction Hl as [|x l Hx Hl IH]; [reflexivity|]. cbn [isort]. rewrite IH. apply Hs; [exact Hx|].
  unfold all_finite. rewrite (isort_perm real_less l). exact Hl.
Qed.
Lemma isort_ascending l : all_finite l -> ascending (isort f32_less l).
Proof.
  intros Hl. rewrite (isort_agree l Hl).
  assert (Hs : StronglySorted (nolater real_less) (isort real_less l)).
  { apply isort_sorted.
    - intros x y z H1 H2. unfold real_less in *. apply Rlt_bool_false. destruct (Rlt_bool_spec (B2R y) (B2R x)); [discriminate|].
      destruct (Rlt_bool_spec (B2R z) (B2R y)); [discriminate|]. lra.
    - intros x y H. unfold real_less in *. apply Rlt_bool_false. destruct (Rlt_bool_spec (B2R x) (B2R y)); [lra|discriminate]. }
  generalize dependent (isort real_less l). intros s Hs i j x y Hij Hi Hj.
  destruct (Nat.eq_dec i j) as [->|Hne]; [rewrite Hi in Hj; injection Hj as ->; lra|].
  assert (nolater real_less x y) as H.
  { clear -Hs Hij Hne Hi Hj. revert i j Hij Hne Hi Hj. induction Hs as [|a s Hs IH Hf]; intros i j Hij Hne Hi Hj; [discriminate|].
    destruct j as [|j]; [lia|]. destruct i as [|i].
    - injection Hi as ->. rewrite Forall_forall in Hf. apply Hf. apply elem_of_list_lookup. eauto.
    - apply (IH i j); [lia|lia|exact Hi|exact Hj]. }
  unfold nolater, real_less in H. destruct (Rlt_bool_spec (B2R y) (B2R x)); [discriminate|assumption].
Qed.
Lemma ascending_stat l s k x : s ≡ₚ l -> ascending s -> s !! k = Some x -> order_stat l k (B2R x).
Proof.
  intros Hp Ha Hk. exists (take k s), x, (drop (S k) s). split_and!.
  - rewrite (take_drop_middle s k x Hk). symmetry. exact Hp.
  - apply take_length_le. apply lookup_lt_Some in Hk. lia.
  - reflexivity.
  - intros y Hy. apply elem_of_list_lookup in Hy as (i & Hi). apply lookup_take_Some in Hi as [Hi Hlt]. apply (Ha i k y x); [lia|exact Hi|exact Hk].
  - intros y Hy. apply elem_of_list_lookup in Hy as (i & Hi). rewrite lookup_drop in Hi. apply (Ha k (S k + i)%nat x y); [lia|exact Hk|exact Hi].
Qed.

(** ** Query on the sorted elements *)
Inductive region (q : f64) : Prop :=
| at_low : Bleb q (B754_zero false) = true -> region q
| at_high : Bleb q (B754_zero false) = false -> Bleb (int64_64 1) q = true -> region q
| inside : Bleb q (B754_zero false) = false -> Bleb (int64_64 1) q = false -> is_finite q = true -> (0 < B2R q < 1)%R -> region q.
Lemma region_of q : is_nan q = false -> region q.
Proof.
  intros Hn. destruct (Bleb q (B754_zero false)) eqn:E0; [apply at_low; exact E0|].
  destruct (Bleb (int64_64 1) q) eqn:E1; [apply at_high; assumption|].
  assert (Hf : is_finite q = true). { destruct q as [s|[|]| |s m e H]; try reflexivity; try discriminate; vm_compute in E0, E1; discriminate. }
  apply inside; auto. destruct (int64_64_spec 1 ltac:(lia)) as [F1 R1].
  rewrite (Bleb_correct 53 1024) in E0 by (auto; reflexivity). rewrite (Bleb_correct 53 1024) in E1 by auto. rewrite R1 in E1.
  change (B2R (B754_zero false)) with 0%R in E0. destruct (Rle_bool_spec (B2R q) 0); [discriminate|]. destruct (Rle_bool_spec 1 (B2R q)); [discriminate|]. lra.
Qed.

Lemma query_value_inside ff fa reads q : (2 <= length reads)%nat -> Bleb q (B754_zero false) = false -> Bleb (int64_64 1) q = false ->
  query_value ff fa reads q =
    (let len1 := int64_64 (Z.of_nat (length reads) - 1) in
     let idx_float := Bmult mode_NE q len1 in
     let idx := Btrunc idx_float in
     let diff := fraction ff q len1 idx_float (int64_64 idx) in
     match nth_z reads idx, nth_z reads (idx + 1) with
     | Some p, Some x => Some (muladd fa diff (Bminus mode_NE (to64 x) (to64 p)) (to64 p))
     | _, _ => None
     end).
Proof. intros Hl H0 H1. destruct reads as [|a [|b s']]; [cbn in Hl; lia|cbn in Hl; lia|]. unfold query_value. rewrite H0, H1. reflexivity. Qed.

Section sorted.
  Variables (fused : bool) (s : list f32).
  Hypothesis Hlen : (1 <= length s <= 64)%nat.
  Hypothesis Hfin : all_finite s.
  Hypothesis Hasc : ascending s.
  Local Notation Q := (query_value false fused s).

  Lemma fin_at i x : s !! i = Some x -> is_finite x = true.
  Proof. intros H. unfold all_finite in Hfin. rewrite Forall_forall in Hfin. apply Hfin, elem_of_list_lookup. eauto. Qed.
  Lemma query_low q : Bleb q (B754_zero false) = true -> exists x, s !! 0%nat = Some x /\ Q q = Some (to64 x).
  Proof.
    intros H. destruct s as [|x [|y s']]; [cbn in Hlen; lia|exists x; auto|]. exists x. split; [reflexivity|]. unfold query_value. rewrite H. reflexivity.
  Qed.
  Lemma query_high q : Bleb q (B754_zero false) = false -> Bleb (int64_64 1) q = true ->
    exists x, s !! (length s - 1)%nat = Some x /\ Q q = Some (to64 x).
  Proof.
    intros H0 H1. destruct s as [|x [|y s']] eqn:Es; [cbn in Hlen; lia|exists x; auto|]. rewrite <- Es in *.
    assert (Hl : (length s - 1 < length s)%nat) by (rewrite Es; cbn; lia). apply lookup_lt_is_Some in Hl as (z & Hz). exists z. split; [exact Hz|].
    unfold query_value. rewrite Es. rewrite <- Es. rewrite H0, H1. unfold nth_z. destruct (Z.leb_spec 0 (Z.of_nat (length s) - 1)) as [_|H]; [|rewrite Es in H; cbn [length] in H; lia].
    replace (Z.to_nat (Z.of_nat (length s) - 1)) with (length s - 1)%nat by lia. rewrite Hz. reflexivity.
  Qed.
  Lemma query_inside q : Bleb q (B754_zero false) = false -> Bleb (int64_64 1) q = false -> is_finite q = true -> (0 < B2R q < 1)%R -> (2 <= length s)%nat ->
    let k := Z.of_nat (length s) - 1 in
    let i := Z.to_nat (Zfloor (rnd (B2R q * IZR k))) in
    exists p x r, s !! i = Some p /\ s !! S i = Some x /\ Q q = Some r /\ is_finite r = true /\
      B2R r = interp fused (B2R p) (B2R x) (frac (B2R q) k) /\ (B2R p <= B2R r <= B2R x)%R /\
      (Rabs (B2R r - (B2R p + frac (B2R q) k * (B2R x - B2R p))) <= pow2 (-50) * (Rabs (B2R p) + Rabs (B2R x)))%R.
  Proof.
    intros H0 H1 Hf Hq Hl k i. destruct (position_spec q k Hf Hq ltac:(lia)) as (Et & Ht & Fd & Ed & Hd).
    assert (Hi : (i < length s)%nat) by lia. assert (Hi' : (S i < length s)%nat) by lia.
    apply lookup_lt_is_Some in Hi as (p & Hp). apply lookup_lt_is_Some in Hi' as (x & Hx).
    pose proof (Hasc i (S i) p x ltac:(lia) Hp Hx) as Hle. rewrite <- Ed in Hd.
    pose proof (muladd_spec fused _ p x Fd Hd (fin_at i p Hp) (fin_at (S i) x Hx) Hle) as (M1 & M2 & M3 & M4). rewrite Ed in M2, M4.
    eexists p, x, _. split; [exact Hp|]. split; [exact Hx|]. split; [|split; [exact M1|split; [exact M2|split; [exact M3|exact M4]]]].
    rewrite query_value_inside by assumption. change (Z.of_nat (length s) - 1) with k. unfold fraction, nth_z. cbv zeta. rewrite Et.
    destruct (Z.leb_spec 0 (Zfloor (rnd (B2R q * IZR k)))) as [_|]; [|lia]. destruct (Z.leb_spec 0 (Zfloor (rnd (B2R q * IZR k)) + 1)) as [_|]; [|lia].
    fold i. rewrite Hp. replace (Z.to_nat (Zfloor (rnd (B2R q * IZR k)) + 1)) with (S i) by lia. rewrite Hx. reflexivity.
  Qed.

  (** Everything Query returns lies between the ends, and between neighbours. *)
  Lemma query_range q : is_nan q = false -> exists r, Q q = Some r /\ is_finite r = true /\
    (exists lo hi, s !! 0%nat = Some lo /\ s !! (length s - 1)%nat = Some hi /\ (B2R lo <= B2R r <= B2R hi)%R).
  Proof.
    intros Hn. assert (Hl : exists lo, s !! 0%nat = Some lo) by (apply lookup_lt_is_Some; lia). assert (Hh : exists hi, s !! (length s - 1)%nat = Some hi) by (apply lookup_lt_is_Some; lia).
    destruct Hl as (lo & Hlo), Hh as (hi & Hhi). pose proof (Hasc 0%nat (length s - 1)%nat lo hi ltac:(lia) Hlo Hhi) as Hends.
    destruct (region_of q Hn) as [R0|R0 R1|R0 R1 Rf Rq].
    - destruct (query_low q R0) as (x & Hx & E). rewrite Hlo in Hx. injection Hx as <-. destruct (to64_spec lo (fin_at _ _ Hlo)) as [F V].
      exists (to64 lo). split; [exact E|]. split; [exact F|]. exists lo, hi. rewrite V. split_and!; auto. lra.
    - destruct (query_high q R0 R1) as (x & Hx & E). rewrite Hhi in Hx. injection Hx as <-. destruct (to64_spec hi (fin_at _ _ Hhi)) as [F V].
      exists (to64 hi). split; [exact E|]. split; [exact F|]. exists lo, hi. rewrite V. split_and!; auto. lra.
    - destruct (decide (2 <= length s)%nat) as [H2|H2].
      + destruct (query_inside q R0 R1 Rf Rq H2) as (p & x & r & Hp & Hx & E & F & _ & B1 & _). exists r. split; [exact E|]. split; [exact F|].
        exists lo, hi. split_and!; auto.
        * pose proof (Hasc 0%nat _ lo p ltac:(lia) Hlo Hp). lra.
        * assert (S (Z.to_nat (Zfloor (rnd (B2R q * IZR (Z.of_nat (length s) - 1))))) <= length s - 1)%nat as Hle by (apply lookup_lt_Some in Hx; lia).
          pose proof (Hasc _ _ x hi Hle Hx Hhi). lra.
      + pose proof (fin_at _ _ Hhi) as Fhi. destruct s as [|a [|b s']]; cbn in H2, Hlen; try lia. injection Hlo as ->. injection Hhi as ->. exists (to64 hi).
        destruct (to64_spec hi Fhi) as [F V]. split; [reflexivity|]. split; [exact F|]. exists hi, hi. rewrite V. split_and!; auto; lra.
  Qed.
  Lemma query_mono q1 q2 r1 r2 : is_nan q1 = false -> is_nan q2 = false -> Bleb q1 q2 = true -> Q q1 = Some r1 -> Q q2 = Some r2 -> (B2R r1 <= B2R r2)%R.
  Proof.
    intros N1 N2 Hle E1 E2.
    destruct (query_range q1 N1) as (r1' & E1' & _ & lo & hi & Hlo & Hhi & B1). rewrite E1 in E1'. injection E1' as <-.
    destruct (query_range q2 N2) as (r2' & E2' & _ & lo' & hi' & Hlo' & Hhi' & B2). rewrite E2 in E2'. injection E2' as <-.
    rewrite Hlo in Hlo'. injection Hlo' as <-. rewrite Hhi in Hhi'. injection Hhi' as <-.
    destruct (int64_64_spec 1 ltac:(lia)) as [F1 V1].
    destruct (region_of q1 N1) as [R0|R0 R1|R0 R1 Rf Rq].
    - destruct (query_low q1 R0) as (x & Hx & E). rewrite Hlo in Hx. injection Hx as <-. rewrite E1 in E. injection E as ->.
      destruct (to64_spec lo (fin_at _ _ Hlo)) as [_ V]. rewrite V. lra.
    - assert (S2 : Bleb q2 (B754_zero false) = false /\ Bleb (int64_64 1) q2 = true).
      { destruct (is_finite q2) eqn:G2.
        - destruct (is_finite q1) eqn:G1.
          + rewrite (Bleb_correct 53 1024) in Hle, R1 by auto. rewrite V1 in R1. rewrite !(Bleb_correct 53 1024) by (auto; reflexivity). rewrite V1.
            destruct (Rle_bool_spec (B2R q1) (B2R q2)); [|discriminate]. destruct (Rle_bool_spec 1 (B2R q1)); [|discriminate].
            split; [apply Rle_bool_false; change (B2R (B754_zero false)) with 0%R; lra|apply Rle_bool_true; lra].
          + destruct q1 as [|[|]| |]; try discriminate. destruct q2 as [[|]|[|]| |[|] ? ? ?]; discriminate.
        - destruct q2 as [|[|]| |]; try discriminate.
          + destruct q1 as [[|]|[|]| |[|] ? ? ?]; discriminate.
          + split; vm_compute; reflexivity. }
      destruct S2 as [S20 S21]. destruct (query_high q2 S20 S21) as (x & Hx & E). rewrite Hhi in Hx. injection Hx as <-. rewrite E2 in E. injection E as ->.
      destruct (to64_spec hi (fin_at _ _ Hhi)) as [_ V]. rewrite V. lra.
    - destruct (region_of q2 N2) as [T0|T0 T1|T0 T1 Tf Tq].
      + exfalso. destruct (is_finite q2) eqn:G2.
        * rewrite (Bleb_correct 53 1024) in Hle by auto. rewrite (Bleb_correct 53 1024) in T0 by (auto; reflexivity). change (B2R (B754_zero false)) with 0%R in T0.
          destruct (Rle_bool_spec (B2R q1) (B2R q2)); [|discriminate]. destruct (Rle_bool_spec (B2R q2) 0); [|discriminate]. lra.
        * destruct q2 as [|[|]| |]; try discriminate. destruct q1 as [[|]|[|]| |[|] ? ? ?]; discriminate.
      + destruct (query_high q2 T0 T1) as (x & Hx & E). rewrite Hhi in Hx. injection Hx as <-. rewrite E2 in E. injection E as ->.
        destruct (to64_spec hi (fin_at _ _ Hhi)) as [_ V]. rewrite V. lra.
      + destruct (decide (2 <= length s)%nat) as [H2|H2].
        2:{ destruct s as [|a [|b s']]; cbn in H2, Hlen; try lia. cbn in E1, E2. rewrite E1 in E2. injection E2 as ->. lra. }
        rewrite (Bleb_correct 53 1024) in Hle by auto. destruct (Rle_bool_spec (B2R q1) (B2R q2)) as [Hq|]; [|discriminate].
        destruct (query_inside q1 R0 R1 Rf Rq H2) as (p & x & r & Hp & Hx & E & F & I1 & B3 & _). rewrite E1 in E. injection E as <-.
        destruct (query_inside q2 T0 T1 Tf Tq H2) as (p' & x' & r' & Hp' & Hx' & E & F' & I2 & B4 & _). rewrite E2 in E. injection E as <-.
        set (k := Z.of_nat (length s) - 1) in *. assert (K : (1 <= IZR k)%R) by (apply IZR_le; lia).
        assert (HX : (rnd (B2R q1 * IZR k) <= rnd (B2R q2 * IZR k))%R) by (apply rnd_le, Rmult_le_compat_r; lra).
        assert (HP : (0 <= rnd (B2R q1 * IZR k))%R) by (rewrite <- rnd_0; apply rnd_le, Rmult_le_pos; lra).
        set (X1 := rnd (B2R q1 * IZR k)) in *. set (X2 := rnd (B2R q2 * IZR k)) in *.
        assert (HZ : Zfloor X1 <= Zfloor X2) by (apply Zfloor_le; exact HX).
        assert (H0 : 0 <= Zfloor X1) by (apply Zfloor_lub; exact HP).
        destruct (Z.eq_dec (Zfloor X1) (Zfloor X2)) as [Ez|Ez].
        * rewrite <- Ez in Hp', Hx'. rewrite Hp in Hp'. injection Hp' as <-. rewrite Hx in Hx'. injection Hx' as <-.
          rewrite I1, I2. unfold interp, frac. fold X1 X2. rewrite <- Ez.
          destruct fused; [apply mono_fused|apply mono_plain]; lra.
        * assert (Hij : (S (Z.to_nat (Zfloor X1)) <= Z.to_nat (Zfloor X2))%nat) by (clear -HZ H0 Ez; generalize dependent (Zfloor X1); generalize (Zfloor X2); intros; lia).
          pose proof (Hasc _ _ x p' Hij Hx Hp'). lra.
  Qed.
End sorted.

(** ** Distributions *)
Section reach.
  Context {V F R : Type}.
  Context (vzero : V) (vlt : V -> V -> bool) (vadd : V -> V -> V).
  Context (fzero : F) (to32 : V -> F) (fless : F -> F -> bool).
  Context (rng_next : R -> Z * R).
  Notation dist := (dist V F R).
  Notation run := (dist_run vzero vlt vadd to32 fless rng_next).
  Notation step := (dist_step vzero vlt vadd to32 fless rng_next).
  Definition SInv (d : dist) : Prop := d_sorted d = true -> exists l, used d = isort fless l.

  Lemma query_sorted_used (d : dist) : length (d_res d) = 64%nat -> 2 <= rlen d -> SInv d -> exists l, used (query_state fless d) = isort fless l.
  Proof.
    intros Hl Hr Hs. unfold query_state. destruct (Z.ltb_spec (rlen d) 2); [lia|]. destruct (d_sorted d) eqn:Ed; [auto|].
    unfold used at 1. unfold rlen at 1. cbn [d_count d_res]. fold (rlen d). exists (take (Z.to_nat (rlen d)) (d_res d)).
    apply take_app_alt. rewrite isort_length, take_length. unfold rlen, ReservoirSize. destruct (Z.ltb_spec (d_count d) 64); lia.
  Qed.
  Lemma step_sinv W d o d' xs : DInv to32 xs d -> Z.of_nat (length xs) + 1 < 2 ^ 63 -> SInv d -> step W d o = Ok d' -> SInv d'.
  Proof.
    intros Hd Hb Hs E. destruct o as [v| | |r|]; cbn [dist_step] in E.
    - unfold dist_insert in E. destruct (d_count d <? ReservoirSize) eqn:Ei.
      + destruct (set_slot _ _ _); [|discriminate]. apply (f_equal (fun o => match o with Ok x => d_sorted x | _ => false end)) in E. cbn in E. intros H. congruence.
      + destruct (rng_next (d_rng d)) as [x rng]. destruct (u64 _ =? 0); [discriminate|]. destruct (_ mod _ <? ReservoirSize).
        * destruct (set_slot _ _ _); [|discriminate]. apply (f_equal (fun o => match o with Ok x => d_sorted x | _ => false end)) in E. cbn in E. intros H. congruence.
        * injection E as <-. intros H. cbn [d_sorted] in H. destruct (Hs H) as (l & Hl). exists l. rewrite <- Hl. unfold used, rlen. cbn [d_count d_res].
          destruct Hd as (Hc & _). rewrite Hc in *. rewrite wrap64_id by (unfold in64; lia). rewrite Ei.
          unfold ReservoirSize in *. destruct (Z.ltb_spec (Z.of_nat (length xs) + 1) 64); [|reflexivity]. apply Z.ltb_ge in Ei. lia.
    - injection E as <-. destruct (decide (rlen d < 2)) as [Hr|Hr].
      + unfold query_state. destruct (Z.ltb_spec (rlen d) 2); [exact Hs|lia].
      + intros _. apply query_sorted_used; [apply Hd|lia|exact Hs].
    - injection E as <-. exact Hs.
    - injection E as <-. exact Hs.
    - injection E as <-. intros _. exists []. reflexivity.
  Qed.
  Lemma run_sinv h xs d d' : DInv to32 xs d -> Z.of_nat (length xs) + inserts h + 1 < 2 ^ 63 -> SInv d -> run d h = Ok d' -> SInv d'.
  Proof.
    revert xs d. induction h as [|[W o] h IH]; intros xs d Hd Hb Hs E; [injection E as <-; exact Hs|].
    assert (Hi : inserts ((W, o) :: h) = (match o with DInsert _ => 1 | _ => 0 end) + inserts h) by (unfold inserts; destruct o; cbn [List.filter snd]; cbn [length]; lia).
    rewrite Hi in Hb. assert (0 <= inserts h) by (unfold inserts; lia). clear Hi. cbn [dist_run] in E.
    assert (Hb' : Z.of_nat (length xs) + 1 < 2 ^ 63) by (destruct o; lia).
    destruct (step_ok vzero vlt vadd fzero to32 fless rng_next W d o xs Hd Hb') as (d1 & E1 & Hd1). rewrite E1 in E.
    apply (IH _ d1 Hd1); [|exact (step_sinv W d o d1 xs Hd Hb' Hs E1)|exact E]. destruct o; rewrite ?app_length; cbn [length]; lia.
  Qed.
  Lemma reads_sorted r h d : inserts h + 1 < 2 ^ 63 -> run (dist_new vzero fzero r) h = Ok d -> exists l, query_reads fless d = isort fless l.
  Proof.
    intros Hb E. destruct (run_new_ok vzero vlt vadd fzero to32 fless rng_next r h Hb) as (d0 & E0 & Hd). rewrite E in E0. injection E0 as <-.
    assert (Hs : SInv d).
    { apply (run_sinv h [] (dist_new vzero fzero r)); [apply (DInv_new vzero vlt vadd fzero to32 fless rng_next)|cbn; lia|intros H; discriminate|exact E]. }
    unfold query_reads. destruct (Z.ltb_spec (rlen d) 2).
    - exists (take 1 (d_res d)). destruct (d_res d) as [|x res]; reflexivity.
    - destruct (query_sorted_used d) as (l & Hl); [apply Hd|lia|exact Hs|]. exists l. rewrite <- Hl. unfold used.
      destruct (query_state_fields vzero vlt vadd fzero to32 fless rng_next d) as (_ & _ & _ & Qc & _). unfold rlen. rewrite Qc. reflexivity.
  Qed.
End reach.

Section queried.
  Context {V R : Type} (vzero : V) (vlt : V -> V -> bool) (vadd : V -> V -> V) (fzero : f32) (to32 : V -> f32) (rng_next : R -> Z * R).
  Variables (r : R) (h : list (Z * dist_op V R)) (d : dist V f32 R).
  Hypothesis Hb : inserts h + 1 < 2 ^ 63.
  Hypothesis Hr : dist_run vzero vlt vadd to32 f32_less rng_next (dist_new vzero fzero r) h = Ok d.
  Hypothesis Hne : recorded h <> [].
  Hypothesis Hf : Forall (fun v => is_finite (to32 v) = true) (recorded h).
  Local Notation s := (query_reads f32_less d).

  Lemma reads_held : s ≡ₚ average_reads d.
  Proof. apply (reservoir_holds vzero vlt vadd fzero to32 f32_less rng_next r h d Hb Hr). exact Hne. Qed.
  Lemma reads_len : (1 <= length s <= 64)%nat.
  Proof.
    rewrite reads_held. destruct (reservoir_holds vzero vlt vadd fzero to32 f32_less rng_next r h d Hb Hr) as (Hl & _).
    assert (recorded h = [] \/ 1 <= length (recorded h))%nat as [H|H] by (destruct (recorded h); [auto|cbn; right; lia]); [contradiction|lia].
  Qed.
  Lemma reads_finite : all_finite s.
  Proof.
    unfold all_finite. rewrite reads_held. destruct (reservoir_holds vzero vlt vadd fzero to32 f32_less rng_next r h d Hb Hr) as (_ & (ys & Hsub & Hp) & _).
    rewrite Hp, Forall_forall. intros x Hx. apply elem_of_list_fmap in Hx as (v & -> & Hv). rewrite Forall_forall in Hf. apply Hf.
    apply (elem_of_submseteq ys); assumption.
  Qed.
  Lemma reads_ascending : ascending s.
  Proof.
    destruct (reads_sorted vzero vlt vadd fzero to32 f32_less rng_next r h d Hb Hr) as (l & Hl). rewrite Hl. apply isort_ascending.
    unfold all_finite. rewrite <- (isort_perm f32_less l), <- Hl. exact reads_finite.
  Qed.
  Lemma lo_smallest lo : s !! 0%nat = Some lo -> smallest_value (average_reads d) (B2R lo).
  Proof.
    intros H. split.
    - exists lo. split; [|reflexivity]. rewrite <- reads_held. apply elem_of_list_lookup. eauto.
    - intros y Hy. rewrite <- reads_held in Hy. apply elem_of_list_lookup in Hy as (i & Hi). apply (reads_ascending 0%nat i lo y); [lia|assumption|assumption].
  Qed.
  Lemma hi_largest hi : s !! (length s - 1)%nat = Some hi -> largest_value (average_reads d) (B2R hi).
  Proof.
    intros H. split.
    - exists hi. split; [|reflexivity]. rewrite <- reads_held. apply elem_of_list_lookup. eauto.
    - intros y Hy. rewrite <- reads_held in Hy. apply elem_of_list_lookup in Hy as (i & Hi). pose proof (lookup_lt_Some _ _ _ Hi). apply (reads_ascending i (length s - 1)%nat y hi); [lia|assumption|assumption].
  Qed.
  Lemma queried_range fused q : is_nan q = false -> exists v lo hi, query fused d q = Some v /\ is_finite v = true /\ smallest_value (average_reads d) lo /\ largest_value (average_reads d) hi /\ (lo <= B2R v <= hi)%R.
  Proof.
    intros Hn. destruct (query_range fused s reads_len reads_finite reads_ascending q Hn) as (v & E & F & lo & hi & Hlo & Hhi & HB).
    exists v, (B2R lo), (B2R hi). split; [exact E|]. split; [exact F|]. split; [apply lo_smallest, Hlo|]. split; [apply hi_largest, Hhi|exact HB].
  Qed.
  Lemma queried_low fused q : Bleb q (B754_zero false) = true -> exists v, query fused d q = Some v /\ smallest_value (average_reads d) (B2R v).
  Proof.
    intros H. destruct (query_low fused s reads_len reads_finite reads_ascending q H) as (x & Hx & E). exists (to64 x). split; [exact E|].
    destruct (to64_spec x (fin_at s reads_finite _ _ Hx)) as [_ ->]. apply lo_smallest, Hx.
  Qed.
  Lemma queried_high fused q : Bleb (int64_64 1) q = true -> exists v, query fused d q = Some v /\ largest_value (average_reads d) (B2R v).
  Proof.
    intros H. destruct (Bleb q (B754_zero false)) eqn:E0.
    { exfalso. destruct (int64_64_spec 1 ltac:(lia)) as [F1 V1]. destruct (is_finite q) eqn:G.
      - rewrite (Bleb_correct 53 1024) in E0, H by (auto; reflexivity). rewrite V1 in H. change (B2R (B754_zero false)) with 0%R in E0.
        destruct (Rle_bool_spec (B2R q) 0); [|discriminate]. destruct (Rle_bool_spec 1 (B2R q)); [lra|discriminate].
      - destruct q as [|[|]| |]; try discriminate; vm_compute in H, E0; discriminate. }
    destruct (query_high fused s reads_len reads_finite reads_ascending q E0 H) as (x & Hx & E). exists (to64 x). split; [exact E|].
    destruct (to64_spec x (fin_at s reads_finite _ _ Hx)) as [_ ->]. apply hi_largest, Hx.
  Qed.
  Lemma queried_between fused q v : is_finite q = true -> (0 < B2R q < 1)%R -> (2 <= length (average_reads d))%nat -> query fused d q = Some v ->
    interpolates (average_reads d) (nearest (B2R q * IZR (Z.of_nat (length (average_reads d)) - 1))) (B2R v).
  Proof.
    intros Fq Hq Hl E. rewrite <- reads_held in Hl. assert (El : length (average_reads d) = length s) by (rewrite reads_held; reflexivity). rewrite El.
    destruct (int64_64_spec 1 ltac:(lia)) as [F1 V1].
    assert (H0 : Bleb q (B754_zero false) = false). { rewrite (Bleb_correct 53 1024) by (auto; reflexivity). apply Rle_bool_false. change (B2R (B754_zero false)) with 0%R. lra. }
    assert (H1 : Bleb (int64_64 1) q = false). { rewrite (Bleb_correct 53 1024) by auto. rewrite V1. apply Rle_bool_false. lra. }
    destruct (query_inside fused s reads_len reads_finite reads_ascending q H0 H1 Fq Hq Hl) as (p & x & v' & Hp & Hx & E' & _ & _ & HB & HA).
    unfold query in E. rewrite E in E'. injection E' as <-.
    change (nearest (B2R q * IZR (Z.of_nat (length s) - 1))) with (rnd (B2R q * IZR (Z.of_nat (length s) - 1))).
    unfold frac in HA. set (X := rnd (B2R q * IZR (Z.of_nat (length s) - 1))) in *.
    assert (X0 : (0 <= X)%R). { unfold X. rewrite <- rnd_0. apply rnd_le, Rmult_le_pos; [lra|]. apply IZR_le. lia. }
    assert (Z0 : 0 <= Zfloor X) by (apply Zfloor_lub; exact X0).
    assert (EK : INR (Z.to_nat (Zfloor X)) = IZR (Zfloor X)) by (rewrite INR_IZR_INZ, Z2Nat.id by lia; reflexivity).
    exists (Z.to_nat (Zfloor X)), (B2R p), (B2R x). rewrite EK. split_and!.
    - apply (ascending_stat _ s); [apply reads_held|apply reads_ascending|exact Hp].
    - apply (ascending_stat _ s); [apply reads_held|apply reads_ascending|exact Hx].
    - pose proof (Zfloor_lb X). lra.
    - pose proof (Zfloor_ub X). lra.
    - lra.
    - lra.
    - exact HA.
  Qed.
  Lemma queried_mono fused q1 q2 v1 v2 : is_nan q1 = false -> is_nan q2 = false -> Bleb q1 q2 = true ->
    query fused d q1 = Some v1 -> query fused d q2 = Some v2 -> (B2R v1 <= B2R v2)%R.
  Proof. apply (query_mono fused s reads_len reads_finite reads_ascending). Qed.
End queried.

(** ** Which recorded values are finite as float32 *)
Lemma int64_32_finite z : in64 z -> is_finite (int64_32 z) = true.
Proof.
  intros Hz. unfold int64_32.
  pose proof (binary_normalize_correct 24 128 prec24 emax128 mode_NE z 0 false) as C. cbv zeta in C. cbn [round_mode] in C.
  assert (E : F2R (Float radix2 z 0) = IZR z) by (unfold F2R; cbn; lra). rewrite E in C.
  rewrite Rlt_bool_true in C; [apply C|]. apply Rle_lt_trans with (pow2 63); [|apply bpow_lt; lia].
  apply abs_round_le_generic; auto with typeclass_instances; [exact (fexp_correct 24 128 prec24)|apply generic_format_bpow; rewrite fexp32_eq; lia|].
  rewrite <- abs_IZR. change (pow2 63) with (IZR (2 ^ 63)). apply IZR_le. unfold in64 in Hz. lia.
Qed.
Lemma float64_32_finite (x : f64) : is_finite x = true -> (Rabs (B2R x) <= pow2 127)%R -> is_finite (float64_32 x) = true.
Proof.
  destruct x as [s|s| |s m e H]; intros Hf Hx; try discriminate; [reflexivity|]. unfold float64_32.
  pose proof (binary_normalize_correct 24 128 prec24 emax128 mode_NE (cond_Zopp s (Zpos m)) e s) as C. cbv zeta in C. cbn [round_mode] in C.
  rewrite Rlt_bool_true in C; [apply C|]. apply Rle_lt_trans with (pow2 127); [|apply bpow_lt; lia].
  apply abs_round_le_generic; auto with typeclass_instances; [exact (fexp_correct 24 128 prec24)|apply generic_format_bpow; rewrite fexp32_eq; lia].
Qed.

(** ** Integer results *)
Definition rnd32 (x : R) : R := round radix2 fexp32 ZnearestE x.
Lemma rnd32_integer z : exists m, rnd32 (IZR z) = IZR m.
Proof.
  unfold rnd32, round, F2R. cbn [Fnum Fexp]. destruct (Z_lt_le_dec (cexp radix2 fexp32 (IZR z)) 0) as [Hc|Hc].
  - exists z. change (F2R (Float radix2 (ZnearestE (scaled_mantissa radix2 fexp32 (IZR z))) (cexp radix2 fexp32 (IZR z))) = IZR z).
    change (round radix2 fexp32 ZnearestE (IZR z) = IZR z). apply round_generic; [apply valid_rnd_N|].
    unfold cexp in Hc. rewrite fexp32_eq in Hc. pose proof (bpow_mag_gt radix2 (IZR z)) as G.
    apply generic_format_FLT with (emin := (-149)%Z) (prec := 24%Z). exists (Float radix2 z 0); [unfold F2R; cbn; lra| |cbn; lia].
    cbn [Fnum]. apply lt_IZR. rewrite abs_IZR. apply Rlt_le_trans with (1 := G). change (IZR (radix2 ^ 24)) with (pow2 24). apply bpow_le. lia.
  - exists (ZnearestE (scaled_mantissa radix2 fexp32 (IZR z)) * 2 ^ cexp radix2 fexp32 (IZR z)).
    rewrite mult_IZR. f_equal. change 2 with (radix_val radix2). symmetry. apply IZR_Zpower. exact Hc.
Qed.
Lemma int64_32_value z : in64 z -> B2R (int64_32 z) = rnd32 (IZR z).
Proof.
  intros Hz. unfold int64_32, rnd32.
  pose proof (binary_normalize_correct 24 128 prec24 emax128 mode_NE z 0 false) as C. cbv zeta in C. cbn [round_mode] in C.
  assert (E : F2R (Float radix2 z 0) = IZR z) by (unfold F2R; cbn; lra). rewrite E in C.
  rewrite Rlt_bool_true in C; [apply C|]. apply Rle_lt_trans with (pow2 63); [|apply bpow_lt; lia].
  apply abs_round_le_generic; auto with typeclass_instances; [exact (fexp_correct 24 128 prec24)|apply generic_format_bpow; rewrite fexp32_eq; lia|].
  rewrite <- abs_IZR. change (pow2 63) with (IZR (2 ^ 63)). apply IZR_le. unfold in64 in Hz. lia.
Qed.
Lemma rnd32_le x y : (x <= y)%R -> (rnd32 x <= rnd32 y)%R.
Proof. apply round_le; [exact (fexp_correct 24 128 prec24)|apply valid_rnd_N]. Qed.
Lemma rnd32_small m e : (Z.abs m < 2 ^ 24) -> 0 <= e -> rnd32 (IZR (m * 2 ^ e)) = IZR (m * 2 ^ e).
Proof.
  intros Hm He. apply round_generic; [apply valid_rnd_N|]. apply generic_format_FLT with (emin := (-149)%Z) (prec := 24%Z).
  exists (Float radix2 m e); [|exact Hm|cbn; lia]. unfold F2R. cbn [Fnum Fexp]. rewrite mult_IZR. f_equal. change 2 with (radix_val radix2). apply IZR_Zpower. exact He.
Qed.
Lemma int_image z : - 2 ^ 63 <= z <= 2 ^ 63 - 2 ^ 39 -> exists m, B2R (int64_32 z) = IZR m /\ - 2 ^ 63 <= m < 2 ^ 63.
Proof.
  intros Hz. rewrite int64_32_value by (unfold in64; lia). destruct (rnd32_integer z) as (m & E). exists m. split; [exact E|].
  assert (L : (rnd32 (IZR (- 2 ^ 63)) <= rnd32 (IZR z))%R) by (apply rnd32_le, IZR_le; lia).
  assert (U : (rnd32 (IZR z) <= rnd32 (IZR (2 ^ 63 - 2 ^ 39)))%R) by (apply rnd32_le, IZR_le; lia).
  rewrite E in L, U. change (- 2 ^ 63) with ((-1) * 2 ^ 63) in L. change (2 ^ 63 - 2 ^ 39) with ((2 ^ 24 - 1) * 2 ^ 39) in U.
  rewrite rnd32_small in L by lia. rewrite rnd32_small in U by lia. apply le_IZR in L, U. lia.
Qed.

Section integers.
  Context {R : Type} (vlt : Z -> Z -> bool) (vadd : Z -> Z -> Z) (fzero : f32) (rng_next : R -> Z * R).
  Variables (r : R) (h : list (Z * dist_op Z R)) (d : dist Z f32 R).
  Hypothesis Hb : inserts h + 1 < 2 ^ 63.
  Hypothesis Hr : dist_run 0 vlt vadd int64_32 f32_less rng_next (dist_new 0 fzero r) h = Ok d.
  Hypothesis Hne : recorded h <> [].
  Hypothesis Hv : Forall (fun z => - 2 ^ 63 <= z <= 2 ^ 63 - 2 ^ 39) (recorded h).

  Lemma ints_finite : Forall (fun v => is_finite (int64_32 v) = true) (recorded h).
  Proof. apply (Forall_impl _ _ _ Hv). intros z Hz. apply int64_32_finite. unfold in64. lia. Qed.
  Lemma held_ints x : x ∈ average_reads d -> exists m, B2R x = IZR m /\ - 2 ^ 63 <= m < 2 ^ 63.
  Proof.
    intros Hx. destruct (reservoir_holds 0 vlt vadd fzero int64_32 f32_less rng_next r h d Hb Hr) as (_ & (ys & Hsub & Hp) & _).
    rewrite Hp in Hx. apply elem_of_list_fmap in Hx as (z & -> & Hz). apply int_image. rewrite Forall_forall in Hv. apply Hv. apply (elem_of_submseteq ys); assumption.
  Qed.
  Lemma int_queried fused q : is_nan q = false -> exists z v lo hi, query fused d q = Some v /\ int_query fused d q = Some (Some z) /\ z = Ztrunc (B2R v) /\
    smallest_value (average_reads d) (IZR lo) /\ largest_value (average_reads d) (IZR hi) /\ lo <= z <= hi.
  Proof.
    intros Hn. destruct (queried_range 0 vlt vadd fzero int64_32 rng_next r h d Hb Hr Hne ints_finite fused q Hn) as (v & lo & hi & E & F & Hlo & Hhi & HB).
    pose proof Hlo as [(x & Hx & Ex) _]. pose proof Hhi as [(y & Hy & Ey) _].
    destruct (held_ints x Hx) as (ml & El & Bl). destruct (held_ints y Hy) as (mh & Eh & Bh). rewrite El in Ex. rewrite Eh in Ey. subst lo hi.
    assert (Ht : Btrunc v = Ztrunc (B2R v)).
    { apply eq_IZR. rewrite (Btrunc_correct 53 1024 emax1024). rewrite round_FIX_IZR. reflexivity. }
    assert (Hz : ml <= Ztrunc (B2R v) <= mh).
    { split; [rewrite <- (Ztrunc_IZR ml)|rewrite <- (Ztrunc_IZR mh)]; apply Ztrunc_le; lra. }
    exists (Ztrunc (B2R v)), v, ml, mh. split; [exact E|]. split; [|auto]. unfold int_query. rewrite E. cbn [option_map]. unfold int64_of. rewrite F, Ht. cbn [andb].
    destruct (Z.leb_spec (- 2 ^ 63) (Ztrunc (B2R v))); [|lia]. destruct (Z.ltb_spec (Ztrunc (B2R v)) (2 ^ 63)); [|lia]. reflexivity.
  Qed.
  Lemma int_mono fused q1 q2 z1 z2 : is_nan q1 = false -> is_nan q2 = false -> Bleb q1 q2 = true ->
    int_query fused d q1 = Some (Some z1) -> int_query fused d q2 = Some (Some z2) -> z1 <= z2.
  Proof.
    intros N1 N2 Hq E1 E2.
    destruct (int_queried fused q1 N1) as (z1' & v1 & _ & _ & F1 & G1 & T1 & _). rewrite E1 in G1. injection G1 as <-.
    destruct (int_queried fused q2 N2) as (z2' & v2 & _ & _ & F2 & G2 & T2 & _). rewrite E2 in G2. injection G2 as <-.
    subst. apply Ztrunc_le. exact (queried_mono 0 vlt vadd fzero int64_32 rng_next r h d Hb Hr Hne ints_finite fused q1 q2 v1 v2 N1 N2 Hq F1 F2).
  Qed.
End integers.
