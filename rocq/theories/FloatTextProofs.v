(** Decimal texts of floats: reading them, rounding, shortest digits (C85, C86). *)
From Verif Require Import Base BaseProofs SeriesModel PresentModel SvgModel SvgSpec SvgProofs SvgNumProofs JsonModel JsonSpec JsonProofs FloatTextModel FloatTextSpec.
Local Open Scope Z_scope.
Local Arguments B : simpl never.

(** ** Digits *)
Lemma number_of_run ds : forall a, Forall dig ds -> fold_left (fun a c => 10 * a + (byte c - 48)) (map dec_digit ds) a = value a ds.
Proof.
  induction ds as [|d ds IH]; intros a H; [reflexivity|]. inversion H; subst. cbn [map fold_left value].
  replace (10 * a + (byte (dec_digit d) - 48)) with (10 * a + d); [apply IH; assumption|]. rewrite (proj2 (is_digit_dec d ltac:(assumption))). lia.
Qed.
Lemma number_of_digits ds : Forall dig ds -> number_of (map dec_digit ds) = value 0 ds.
Proof. apply number_of_run. Qed.
Lemma pow2_10 n : 0 <= n -> 2 ^ n <= 10 ^ n.
Proof. intros H. apply Z.pow_le_mono_l. lia. Qed.
Lemma ndec_digits n : 0 <= n -> exists ds, ndec n = map dec_digit ds /\ ds <> [] /\ Forall dig ds /\ value 0 ds = n /\ number_int (map dec_digit ds) = true.
Proof.
  intros H. unfold ndec. set (fuel := S (Z.to_nat (Z.log2 n))).
  assert (L : n < 10 ^ Z.of_nat fuel).
  { unfold fuel. rewrite Nat2Z.inj_succ, Z2Nat.id by apply Z.log2_nonneg.
    destruct (Z.eq_dec n 0) as [->|Nz]; [vm_compute; reflexivity|]. pose proof (proj2 (Z.log2_spec n ltac:(lia))).
    pose proof (pow2_10 (Z.succ (Z.log2 n)) ltac:(pose proof (Z.log2_nonneg n); lia)). lia. }
  destruct (dec_go_digits fuel n [] ltac:(unfold fuel; lia) (conj H L)) as (ds & E & Hne & Hd & Hv). rewrite app_nil_r in E.
  exists ds. split_and!; [exact E|exact Hne|exact Hd|exact Hv|]. pose proof (digits_forall ds Hd) as F.
  unfold number_int. destruct ds as [|d ds]; [contradiction|]. cbn [map] in *. unfold digits1. rewrite F. cbn [andb].
  destruct ds as [|d' ds]; [reflexivity|]. cbn [map]. apply negb_true_iff, Z.eqb_neq.
  destruct (Z.eq_dec n 0) as [->|Nz].
  - exfalso. apply (f_equal (@length ascii)) in E. vm_compute in E. discriminate.
  - destruct (dec_go_head fuel n [] ltac:(lia) L) as (e & x & E' & He). rewrite E' in E.
    assert (Ee : dec_digit e = dec_digit d) by congruence. rewrite <- Ee. rewrite (proj2 (is_digit_dec e ltac:(unfold dig; lia))). lia.
Qed.
Lemma pad_digits p : forall n acc, 0 <= n -> exists ds, pad_dec p n acc = map dec_digit ds ++ acc /\ length ds = p /\ Forall dig ds /\ value 0 ds = n mod 10 ^ Z.of_nat p.
Proof.
  induction p as [|p IH]; intros n acc H.
  - exists []. split_and!; [reflexivity|reflexivity|constructor|]. cbn. rewrite Z.mod_1_r. reflexivity.
  - cbn [pad_dec]. pose proof (Z.mod_pos_bound n 10 ltac:(lia)) as Hm.
    destruct (IH (n / 10) (dec_digit (n mod 10) :: acc) ltac:(apply Z.div_pos; lia)) as (ds & E & Hl & Hd & Hv).
    exists (ds ++ [n mod 10]). rewrite E, map_app, <- app_assoc, app_length. split_and!; [reflexivity|cbn; lia|apply Forall_app; split; [exact Hd|repeat constructor; lia]|].
    rewrite value_app, Hv, mod_split. cbn. lia.
Qed.

(** ** Reading *)
Lemma dec_digit_codes d : dig d -> is_digit (dec_digit d) = true /\ (byte (dec_digit d) =? 45) = false /\ (byte (dec_digit d) =? 43) = false.
Proof. intros H. destruct (is_digit_dec d H) as [-> ->]. unfold dig in H. split_and!; [reflexivity| |]; apply Z.eqb_neq; lia. Qed.
Definition exp_part (x : option (bool * list Z)) : bytes :=
  match x with Some (neg, ds) => B "e" ++ (if neg then B "-" else B "+") ++ map dec_digit ds | None => [] end.
Definition frac_part (f : list Z) : bytes := match f with [] => [] | _ => B "." ++ map dec_digit f end.
Lemma read_text neg i f x :
  Forall dig i -> Forall dig f -> number_int (map dec_digit i) = true -> match x with Some (_, ds) => Forall dig ds /\ ds <> [] | None => True end ->
  read_number (sign_text neg ++ map dec_digit i ++ frac_part f ++ exp_part x) =
  Some (neg, value 0 (i ++ f), match x with Some (xneg, ds) => signed xneg (value 0 ds) | None => 0 end - Z.of_nat (length f)).
Proof.
  intros Hi Hf Hn Hx. destruct i as [|d i]; [discriminate|].
  assert (Dd : dig d) by (inversion Hi; assumption). destruct (dec_digit_codes d Dd) as (Cd & C45 & C43).
  assert (Hne : exists y, map dec_digit (d :: i) ++ frac_part f ++ exp_part x = dec_digit d :: y) by (eexists; reflexivity).
  set (body := map dec_digit (d :: i) ++ frac_part f ++ exp_part x) in *.
  assert (S1 : match sign_text neg ++ body with c :: s' => if byte c =? 45 then s' else sign_text neg ++ body | [] => [] end = body).
  { destruct neg; [reflexivity|]. unfold sign_text. rewrite app_nil_l. destruct Hne as [y ->]. rewrite C45. reflexivity. }
  assert (S2 : read_sign (sign_text neg ++ body) = (neg, body)).
  { destruct neg; [reflexivity|]. unfold sign_text. rewrite app_nil_l. destruct Hne as [y ->]. cbn [read_sign]. rewrite C45, C43. reflexivity. }
  assert (E1 : match exp_part x with c :: _ => is_digit c = false | [] => True end) by (destruct x as [[[|] ?]|]; reflexivity || exact I).
  assert (S3 : span_of is_digit body = (map dec_digit (d :: i), frac_part f ++ exp_part x)).
  { apply span_of_app; [apply digits_forall, Hi|]. destruct f as [|f0 f]; [exact E1|reflexivity]. }
  assert (S4 : forall A (k : bytes * bytes -> A), match frac_part f ++ exp_part x with c :: r' => if byte c =? 46 then k (span_of is_digit r') else k ([], frac_part f ++ exp_part x) | [] => k ([], []) end
             = k (map dec_digit f, exp_part x)).
  { intros A k. destruct f as [|f0 f].
    - cbn [frac_part map]. rewrite app_nil_l. destruct x as [[[|] ?]|]; reflexivity.
    - change (frac_part (f0 :: f) ++ exp_part x) with ("."%char :: map dec_digit (f0 :: f) ++ exp_part x). cbv iota. change (byte "." =? 46) with true. cbv iota.
      rewrite span_of_app; [reflexivity|apply digits_forall, Hf|exact E1]. }
  assert (X1 : number_exp (exp_part x) = true).
  { destruct x as [[xneg ds]|]; [|reflexivity]. destruct Hx as [Hx Hnx]. destruct ds as [|e ds]; [contradiction|].
    assert (D1 : digits1 (map dec_digit (e :: ds)) = true) by (apply digits_forall, Hx).
    destruct xneg; cbn [exp_part]; [change (B "e" ++ B "-" ++ ?y) with ("e"%char :: "-"%char :: y)|change (B "e" ++ B "+" ++ ?y) with ("e"%char :: "+"%char :: y)]; cbn [number_exp]; cbv beta; [change (byte "-" =? 43) with false; change (byte "-" =? 45) with true|change (byte "+" =? 43) with true]; cbn [orb]; exact D1. }
  assert (T : number_text (sign_text neg ++ body) = true).
  { unfold number_text. rewrite S1, S3, Hn. cbn [andb]. unfold number_frac.
    destruct f as [|f0 f].
    - cbn [frac_part]. rewrite app_nil_l. revert X1. destruct x as [[[|] ?]|]; intros X1; [exact X1|exact X1|reflexivity].
    - change (frac_part (f0 :: f) ++ exp_part x) with ("."%char :: map dec_digit (f0 :: f) ++ exp_part x). cbv iota. change (byte "." =? 46) with true. cbv iota.
      rewrite span_of_app; [|apply digits_forall, Hf|exact E1]. rewrite X1, andb_true_r. apply (digits_forall (f0 :: f)), Hf. }
  unfold read_number. rewrite T, S2. cbv beta iota. rewrite S3. cbv beta iota. match goal with |- context [let (_, _) := ?t in _] => replace t with (map dec_digit f, exp_part x) by (symmetry; exact (S4 _ (fun p => p))) end. cbv beta iota. rewrite <- map_app, number_of_digits by (apply Forall_app; split; assumption). rewrite map_length. f_equal. f_equal.
  f_equal. destruct x as [[xneg ds]|]; [|reflexivity]. destruct Hx as [Hx Hnx]. destruct ds as [|e ds]; [contradiction|].
  assert (De : dig e) by (inversion Hx; assumption).
  destruct xneg; cbn [exp_part]; [change (B "e" ++ B "-" ++ ?y) with ("e"%char :: "-"%char :: y)|change (B "e" ++ B "+" ++ ?y) with ("e"%char :: "+"%char :: y)]; cbv iota; cbn [read_sign]; [change (byte "-" =? 45) with true|change (byte "+" =? 45) with false; change (byte "+" =? 43) with true]; cbv iota; rewrite number_of_digits by exact Hx; reflexivity.
Qed.
Lemma point_read neg p n : 0 <= n -> read_number (sign_text neg ++ point_text p n) = Some (neg, n, - Z.of_nat p).
Proof.
  intros H. unfold point_text. assert (P0 : 0 < 10 ^ Z.of_nat p) by (apply Z.pow_pos_nonneg; lia).
  destruct (ndec_digits (n / 10 ^ Z.of_nat p) ltac:(apply Z.div_pos; lia)) as (i & Ei & _ & Hi & Vi & Ni).
  destruct (pad_digits p n [] H) as (f & Ef & Lf & Hf & Vf). rewrite app_nil_r in Ef.
  pose proof (read_text neg i f None Hi Hf Ni I) as R. cbn [exp_part] in R. rewrite app_nil_r in R.
  replace (match p with O => [] | S _ => B "." ++ pad_dec p n [] end) with (frac_part f).
  2: { destruct p as [|p]; [destruct f; [reflexivity|discriminate]|]. destruct f; [discriminate|]. rewrite Ef. reflexivity. }
  rewrite Ei, R. f_equal. f_equal; [f_equal|lia].
  rewrite value_app, value_shift, Vi, Vf, Lf. pose proof (Z.div_mod n (10 ^ Z.of_nat p) ltac:(lia)). lia.
Qed.
Lemma ndec_read neg n : 0 <= n -> read_number (sign_text neg ++ ndec n) = Some (neg, n, 0).
Proof. intros H. pose proof (point_read neg 0 n H) as R. unfold point_text in R. rewrite app_nil_r in R. change (10 ^ Z.of_nat 0) with 1 in R. rewrite Z.div_1_r in R. exact R. Qed.
Lemma fmt_e_read neg d e : 0 < d -> read_number (sign_text neg ++ fmt_e d e) = Some (neg, d, e).
Proof.
  intros H. unfold fmt_e. destruct (ndec_digits d ltac:(lia)) as (ds & E & Hne & Hd & Hv & Hn). rewrite E, map_length.
  destruct ds as [|c ds]; [contradiction|]. apply Forall_cons in Hd as HD; destruct HD as [Dc Dds].
  set (x := e + Z.of_nat (length (c :: ds)) - 1).
  destruct (ndec_digits (Z.abs x) ltac:(lia)) as (xs & Ex & Hxne & Hx & Vx & _).
  assert (Nc : number_int (map dec_digit [c]) = true).
  { unfold number_int, digits1. cbn [map forallb]. rewrite (proj1 (is_digit_dec c Dc)). reflexivity. }
  pose proof (read_text neg [c] ds (Some (x <? 0, xs)) ltac:(repeat constructor; apply Dc) Dds Nc (conj Hx Hxne)) as R.
  cbn [exp_part] in R. rewrite <- Ex in R.
  replace (take 1 (map dec_digit (c :: ds)) ++ (if (1 <? length (c :: ds))%nat then B "." ++ drop 1 (map dec_digit (c :: ds)) else []) ++ B "e" ++ (if x <? 0 then B "-" else B "+") ++ ndec (Z.abs x))
    with (map dec_digit [c] ++ frac_part ds ++ B "e" ++ (if x <? 0 then B "-" else B "+") ++ ndec (Z.abs x)).
  2: { destruct ds; reflexivity. }
  rewrite R. f_equal. f_equal; [f_equal|].
  - exact Hv.
  - rewrite Vx. unfold signed. destruct (Z.ltb_spec x 0); unfold x in *; cbn [length] in *; lia.
Qed.

(** ** Rounding *)
Lemma half_even_near n d : 0 < d -> 2 * Z.abs (half_even n d * d - n) <= d.
Proof.
  intros H. unfold half_even. pose proof (Z.div_mod n d ltac:(lia)) as E. pose proof (Z.mod_pos_bound n d H) as R.
  remember (n / d) as q. remember (n mod d) as r. clear Heqq Heqr.
  destruct (Z.ltb_spec (2 * r) d); [|destruct (Z.ltb_spec d (2 * r)); [|destruct (Z.even q)]]; nia.
Qed.
Lemma half_even_cases n d : 0 < d -> half_even n d = n / d \/ half_even n d = n / d + 1.
Proof. intros H. unfold half_even. destruct (_ <? _); [tauto|]. destruct (_ <? _); [tauto|]. destruct (Z.even _); tauto. Qed.
Lemma half_even_exact q d : 0 < d -> half_even (q * d) d = q.
Proof. intros H. unfold half_even. rewrite Z.mod_mul, Z.div_mul by lia. destruct (Z.ltb_spec (2 * 0) d); lia. Qed.
Lemma half_even_mono n n' d : 0 < d -> n <= n' -> half_even n d <= half_even n' d.
Proof.
  intros H L. unfold half_even.
  pose proof (Z.div_mod n d ltac:(lia)) as E. pose proof (Z.mod_pos_bound n d H) as R. pose proof (Z.div_mod n' d ltac:(lia)) as E'. pose proof (Z.mod_pos_bound n' d H) as R'.
  pose proof (Z.div_le_mono n n' d H L) as M. remember (n / d) as q. remember (n mod d) as r. remember (n' / d) as q'. remember (n' mod d) as r'.
  clear Heqq Heqr Heqq' Heqr'.
  destruct (Z.eq_dec q q') as [<-|N].
  - assert (r <= r') by nia. destruct (Z.ltb_spec (2 * r) d), (Z.ltb_spec (2 * r') d), (Z.ltb_spec d (2 * r)), (Z.ltb_spec d (2 * r')), (Z.even q); lia.
  - destruct (Z.ltb_spec (2 * r) d), (Z.ltb_spec (2 * r') d), (Z.ltb_spec d (2 * r)), (Z.ltb_spec d (2 * r')), (Z.even q), (Z.even q'); lia.
Qed.
Lemma half_even_nonneg n d : 0 < d -> 0 <= n -> 0 <= half_even n d.
Proof. intros H L. pose proof (Z.div_pos n d L H). destruct (half_even_cases n d H); lia. Qed.
