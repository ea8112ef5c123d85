(** The lines of StatsText (for C93). *)
From Coq Require Import Reals Lra Lia.
From Flocq Require Import Core BinarySingleNaN.
From Verif Require Import Base BaseProofs SeriesModel Fval DistModel QueryReal QueryModel QuerySpec NumModel NumSpec NumProofs
  PresentModel PresentSpec PresentProofs FloatTextModel FloatTextSpec FloatTextProofs FloatTextProofs2 FloatTextProofs3 FloatTextProps
  Conc TransformModel TransformProofs ScopeModel FuncStatsModel FuncStatsSpec FuncStatsProofs SpecBase CounterModel CounterSpec CounterProofs MeterModel MeterSpec MeterProofs
  LineModel LineSpec.
Local Open Scope R_scope.

(** ** The representations agree. *)
Lemma digits_bound m : (2 ^ (Z.pos (SpecFloat.digits2_pos m) - 1) <= Z.pos m < 2 ^ Z.pos (SpecFloat.digits2_pos m))%Z.
Proof.
  rewrite Digits.Zpos_digits2_pos. pose proof (Digits.Zdigits_correct radix2 (Zpos m)) as [H1 H2].
  change (Z.pow_pos _ _) with (2 ^ 2)%Z || idtac. cbn [Z.abs] in *. split; assumption.
Qed.

Lemma text_ok (x : f64) : float_ok (text_float x).
Proof.
  destruct x as [s|s| |s m e H]; cbn [text_float float_ok]; try exact I.
  - unfold float_parts. lia.
  - unfold SpecFloat.bounded in H. apply andb_true_iff in H as [H1 H2]. apply Zeq_bool_eq in H1. apply Zle_bool_imp_le in H2.
    unfold SpecFloat.canonical_mantissa, SpecFloat.fexp, SpecFloat.emin in *. pose proof (digits_bound m) as [D1 D2].
    set (n := Z.pos (SpecFloat.digits2_pos m)) in *. assert (0 < n)%Z by (unfold n; lia). clearbody n. unfold float_parts.
    assert (n <= 53)%Z by lia. split; [|lia]. split_and!; [lia| |lia|].
    + apply Z.lt_le_trans with (1 := D2). apply Z.pow_le_mono_r; lia.
    + destruct (Z.eq_dec e (-1074)%Z) as [->|He]; [left; reflexivity|right]. assert (n = 53)%Z as -> by lia. exact D1.
Qed.

Lemma text_value (x : f64) : is_finite x = true ->
  exists neg m j, text_float x = Fin64 neg m j /\ (neg = false -> 0 <= B2R x) /\ (neg = true -> B2R x <= 0) /\
    Rabs (B2R x) * IZR (2 ^ 1074) = IZR (m * 2 ^ j) /\ (0 <= m)%Z /\ (0 <= j)%Z.
Proof.
  intros Hf. pose proof (text_ok x) as Hok. destruct x as [s|s| |s m e H]; try discriminate; cbn [text_float] in *.
  - exists s, 0%Z, 0%Z. split_and!; cbn [B2R]; try reflexivity; try lra; try lia. rewrite Rabs_R0. change (0 * 2 ^ 0)%Z with 0%Z. ring.
  - exists s, (Zpos m), (e + 1074)%Z. split_and!; try reflexivity; try lia.
    + intros ->. cbn [B2R cond_Zopp]. apply F2R_ge_0. cbn. lia.
    + intros ->. cbn [B2R cond_Zopp]. apply F2R_le_0. cbn. lia.
    + destruct Hok as [(_ & Hj & _) _]. cbn [B2R]. rewrite <- F2R_Zabs, abs_cond_Zopp. cbn [Z.abs].
      unfold F2R. cbn [Fnum Fexp]. rewrite mult_IZR. change 2%Z with (radix_val radix2). rewrite !IZR_Zpower by lia.
      rewrite Rmult_assoc, <- bpow_plus. reflexivity.
    + destruct Hok as [(_ & Hj & _) _]. lia.
Qed.

Lemma two_1074 : 0 < IZR (2 ^ 1074).
Proof. apply (IZR_lt 0). apply Z.pow_pos_nonneg; lia. Qed.

Lemma show_integer (x : f64) (z : Z) : is_finite x = true -> B2R x = IZR z -> (z = 0%Z -> x = B754_zero false) ->
  shows_integer (fixed_text 6 (text_float x)) z.
Proof.
  intros Hf Hv H0. destruct (text_value x Hf) as (neg & m & j & E & Hp & Hn & Hm & _). pose proof (text_ok x) as Hok. rewrite E in *.
  rewrite Hv, <- abs_IZR, <- mult_IZR in Hm. apply eq_IZR in Hm. symmetry in Hm. unfold shows_integer.
  rewrite (C85_whole neg m j (Z.abs z) Hok Hm). f_equal. f_equal. f_equal.
  destruct (Z.eq_dec z 0%Z) as [->|Hz].
  - rewrite (H0 eq_refl) in E. cbn [text_float] in E. injection E as <- _ _. reflexivity.
  - destruct neg.
    + specialize (Hn eq_refl). rewrite Hv in Hn. apply (le_IZR z 0) in Hn. symmetry. apply Z.ltb_lt. lia.
    + specialize (Hp eq_refl). rewrite Hv in Hp. apply (le_IZR 0 z) in Hp. symmetry. apply Z.ltb_ge. lia.
Qed.

Lemma show_int z : (Z.abs z <= 2 ^ 53)%Z -> shows_integer (fixed_text 6 (text_float (int64_64 z))) z.
Proof.
  intros Hz. destruct (int_exact z Hz) as [F E]. apply show_integer; [exact F|exact E|]. intros ->. reflexivity.
Qed.

Lemma show_value (x : f64) : is_finite x = true -> shows_about (fixed_text 6 (text_float x)) (B2R x) (/ 2000000).
Proof.
  intros Hf. destruct (text_value x Hf) as (neg & m & j & E & Hp & Hn & Hm & _). pose proof (text_ok x) as Hok. rewrite E in *.
  destruct (fixed_read neg m j Hok) as (d & R & D & _). exists neg, d. split; [exact R|]. clear R.
  unfold distance in D. change (Z.max (-6) 0) with 0%Z in D. change (Z.max (- -6) 0) with 6%Z in D. change (10 ^ 0)%Z with 1%Z in D. change (10 ^ 6)%Z with 1000000%Z in D.
  rewrite Z.mul_1_r in D. apply IZR_le in D. rewrite mult_IZR, abs_IZR, minus_IZR, !(mult_IZR _ 1000000) in D. rewrite <- Hm in D. rewrite mult_IZR in D.
  pose proof two_1074 as Hu. set (u := IZR (2 ^ 1074)) in *. clearbody u.
  set (y := Rabs (B2R x)) in *.
  assert (2 * (Rabs (IZR d - y * 1000000) * u) <= u) as D'.
  { replace (IZR d * u - y * u * 1000000) with ((IZR d - y * 1000000) * u) in D by ring. rewrite Rabs_mult, (Rabs_pos_eq u) in D by lra. lra. }
  assert (Rabs (IZR d - y * 1000000) <= / 2) as D2 by (apply Rmult_le_reg_r with u; lra).
  destruct neg; cbn [signed].
  - assert (y = - B2R x) as Ey by (unfold y; rewrite Rabs_left1 by (apply Hn; reflexivity); reflexivity). rewrite opp_IZR.
    apply Rabs_le. apply Rabs_le_inv in D2. lra.
  - assert (y = B2R x) as Ey by (unfold y; rewrite Rabs_pos_eq by (apply Hp; reflexivity); reflexivity).
    apply Rabs_le. apply Rabs_le_inv in D2. lra.
Qed.

Lemma show_about c (x : f64) r : about c x r -> shows_about (fixed_text 6 (text_float x)) r (/ 2000000 + c * Rabs r).
Proof.
  intros [Hf Ha]. destruct (show_value x Hf) as (neg & d & R & D). exists neg, d. split; [exact R|].
  replace (IZR (signed neg d) / 1000000 - r) with ((IZR (signed neg d) / 1000000 - B2R x) + (B2R x - r)) by ring.
  apply Rle_trans with (1 := Rabs_triang _ _). lra.
Qed.

(** ** Reports *)
Lemma report_read other range : one_line_stats (registry_source range) ->
  read_stats (concat (map stat_line (report_of other (registry_source range)))) =
  Some (map (fun st => (with_field (st_key st) (st_field st), fixed_text 6 (text_float (float_of other (st_val st))))) (registry_source range)).
Proof.
  intros H. rewrite stats_read.
  - f_equal. unfold report_of. rewrite map_map. reflexivity.
  - unfold report_of, one_line_stats in *. apply Forall_map. eapply Forall_impl; [exact H|]. intros st Hs. split; [exact Hs|apply text_ok].
Qed.

Lemma source_has (range : list (bytes * list (stat fval))) name l st : (name, l) ∈ range -> st ∈ l -> st ∈ registry_source range.
Proof.
  intros H Hs. unfold registry_source. apply elem_of_list_In, in_concat. exists l. split; [|by apply elem_of_list_In].
  apply in_map_iff. exists (name, l). split; [reflexivity|]. apply elem_of_list_In. unfold scopes. rewrite isort_perm. exact H.
Qed.

Lemma forward_has {V} name (calls : list (list (stat V))) src st : src ∈ calls -> st ∈ src ->
  Stat (with_tag (st_key st) (B "scope") name) (st_field st) (st_val st) ∈ scope_forward name calls.
Proof.
  intros H Hs. unfold scope_forward. apply elem_of_list_In, in_flat_map. exists src. split; [by apply elem_of_list_In|].
  apply in_map_iff. exists st. split; [reflexivity|by apply elem_of_list_In].
Qed.

Lemma text_lines other faults s range : one_line_stats (registry_source range) ->
  exists chunks lines, delivered faults s chunks (registry_text other faults s range) /\ read_stats (concat chunks) = Some lines /\
    length lines = length (registry_source range) /\
    forall name calls src st, (name, scope_forward name calls) ∈ range -> src ∈ calls -> st ∈ src ->
      has_line lines (with_tag (st_key st) (B "scope") name) (st_field st) (fixed_text 6 (text_float (float_of other (st_val st)))).
Proof.
  intros H. eexists _, _. split; [apply stats_text_delivered|]. split; [apply report_read, H|]. split; [apply map_length|].
  intros name calls src st Hr Hc Hs. unfold has_line. apply elem_of_list_fmap.
  exists (Stat (with_tag (st_key st) (B "scope") name) (st_field st) (st_val st)). split; [reflexivity|].
  eapply source_has; [exact Hr|]. apply forward_has with src; assumption.
Qed.

Lemma show_seconds d : in64 d ->
  shows_about (fixed_text 6 (text_float (seconds d))) (in_seconds d)
    (/ 2000000 + (bpow radix2 (-52) + bpow radix2 (-106)) * Rabs (in_seconds d)).
Proof. intros Hd. apply show_about. apply seconds_spec, Hd. Qed.
