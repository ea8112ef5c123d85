From Verif Require Import Base BaseProofs RngModel RngSpec.
From Coq Require Import ZifyBool ZifyN ZifyNat Znumtheory Zpow_facts FinFun.
Local Open Scope N_scope.
Local Arguments N.pow : simpl never.
Local Arguments N.modulo : simpl never.
Local Arguments N.mul : simpl never.
Local Arguments N.shiftl : simpl never.
Local Arguments N.shiftr : simpl never.

Lemma two64_pos : 0 < two64.
Proof. reflexivity. Qed.
Lemma two64_nz : two64 <> 0.
Proof. discriminate. Qed.

Lemma lt_two64_shiftr x : x < two64 <-> N.shiftr x 64 = 0.
Proof.
  rewrite N.shiftr_div_pow2. change (2 ^ 64) with two64. split; intros H.
  - apply N.div_small, H.
  - apply N.div_small_iff in H; [assumption|discriminate].
Qed.

Lemma lxor_lt64 x y : x < two64 -> y < two64 -> N.lxor x y < two64.
Proof.
  rewrite !lt_two64_shiftr. intros H1 H2. rewrite N.shiftr_lxor, H1, H2. reflexivity.
Qed.
Lemma shr64_lt x k : x < two64 -> shr64 x k < two64.
Proof.
  intros H. unfold shr64. rewrite N.shiftr_div_pow2.
  eapply N.le_lt_trans; [|exact H]. apply N.div_le_upper_bound; [apply N.pow_nonzero; lia|].
  assert (2 ^ k <> 0) by (apply N.pow_nonzero; lia). nia.
Qed.
Lemma mod_lt64 x : x mod two64 < two64.
Proof. apply N.mod_lt. discriminate. Qed.

(** ** Injectivity of the building blocks *)
Lemma lxor_cancel x y : N.lxor x y = 0 -> x = y.
Proof. apply N.lxor_eq. Qed.

Lemma lxor_swap4 a b c d : N.lxor (N.lxor a b) (N.lxor c d) = N.lxor (N.lxor a c) (N.lxor b d).
Proof.
  rewrite !N.lxor_assoc. f_equal. rewrite <- !N.lxor_assoc. f_equal. apply N.lxor_comm.
Qed.

Lemma xorshr_inj k x y : 0 < k ->
  N.lxor x (shr64 x k) = N.lxor y (shr64 y k) -> x = y.
Proof.
  intros Hk H. apply lxor_cancel. set (z := N.lxor x y).
  assert (Hz : N.lxor z (N.shiftr z k) = 0).
  { unfold z. rewrite N.shiftr_lxor, lxor_swap4. unfold shr64 in H. rewrite H. apply N.lxor_nilpotent. }
  apply lxor_cancel in Hz. rewrite N.shiftr_div_pow2 in Hz.
  destruct (N.eq_0_gt_0_cases z) as [E|E]; [assumption|].
  assert (1 < 2 ^ k) by (apply N.pow_gt_1; lia).
  pose proof (N.div_lt z (2 ^ k) E ltac:(assumption)). lia.
Qed.

Lemma odd_mul_cancel a z n : N.odd a = true -> (a * z) mod 2 ^ n = 0 -> z mod 2 ^ n = 0.
Proof.
  intros Ha H.
  assert (Hr : rel_prime (2 ^ Z.of_N n)%Z (Z.of_N a)).
  { apply rel_prime_sym, Zpow_facts.rel_prime_Zpower_r; [lia|].
    apply rel_prime_sym, prime_rel_prime; [apply prime_2|].
    intros Hd. apply N.odd_spec in Ha. destruct Ha as [m Hm].
    destruct Hd as [q Hq]. lia. }
  assert (Hd : (2 ^ Z.of_N n | Z.of_N a * Z.of_N z)%Z).
  { apply Z.mod_divide; [pose proof (Z.pow_pos_nonneg 2 (Z.of_N n)); lia|].
    rewrite <- N2Z.inj_mul. change 2%Z with (Z.of_N 2). rewrite <- N2Z.inj_pow, <- N2Z.inj_mod, H. reflexivity. }
  apply Gauss in Hd; [|assumption].
  apply Z.mod_divide in Hd; [|pose proof (Z.pow_pos_nonneg 2 (Z.of_N n)); lia].
  change 2%Z with (Z.of_N 2) in Hd. rewrite <- N2Z.inj_pow, <- N2Z.inj_mod in Hd. lia.
Qed.

(** The modulus is kept abstract in the next lemmas, which keeps their proofs small. *)
Lemma mod_sub_zero_gen M x y : M <> 0 -> x <= y -> x mod M = y mod M -> (y - x) mod M = 0.
Proof.
  intros HM Hle H.
  pose proof (N.div_mod x M HM) as H1.
  pose proof (N.div_mod y M HM) as H2.
  rewrite H in H1.
  assert (x / M <= y / M) by (apply N.div_le_mono; assumption).
  replace (y - x) with ((y / M - x / M) * M).
  - apply N.mod_mul. exact HM.
  - rewrite N.mul_sub_distr_r. lia.
Qed.
Lemma mul_inj_gen M n a x y : M = 2 ^ n -> N.odd a = true -> x < M -> y < M -> (x * a) mod M = (y * a) mod M -> x = y.
Proof.
  intros EM Ha.
  assert (HM : M <> 0) by (rewrite EM; apply N.pow_nonzero; discriminate).
  assert (Hw : forall x y, x <= y -> x < M -> y < M -> (x * a) mod M = (y * a) mod M -> x = y).
  2:{ intros Hx Hy H. destruct (N.le_ge_cases x y); [auto|]. symmetry. apply Hw; auto. }
  clear x y. intros x y Hle Hx Hy H.
  apply mod_sub_zero_gen in H; [|exact HM|apply N.mul_le_mono_r, Hle].
  rewrite <- N.mul_sub_distr_r, N.mul_comm in H. subst M.
  apply odd_mul_cancel in H; [|assumption].
  rewrite N.mod_small in H by lia. lia.
Qed.
Lemma mul64_inj a x y : N.odd a = true -> x < two64 -> y < two64 -> mul64 x a = mul64 y a -> x = y.
Proof. exact (mul_inj_gen two64 64 a x y eq_refl). Qed.

Lemma lxor_shl_gen n k x y : (N.shiftl (N.lxor x y) k) mod 2 ^ n = N.lxor ((N.shiftl x k) mod 2 ^ n) ((N.shiftl y k) mod 2 ^ n).
Proof.
  rewrite <- !N.land_ones. rewrite N.shiftl_lxor.
  apply N.bits_inj. intros i. rewrite !N.lxor_spec, !N.land_spec, N.lxor_spec.
  destruct (N.testbit (N.shiftl x k) i), (N.testbit (N.shiftl y k) i), (N.testbit (N.ones n) i); reflexivity.
Qed.
Lemma odd_double_pred q : q <> 0 -> N.odd (2 * q - 1) = true.
Proof. intros Hq. apply N.odd_spec. exists (q - 1). lia. Qed.
Lemma shl_fixed_gen M n k z : M = 2 ^ n -> 0 < k -> z < M -> z = (z * 2 ^ k) mod M -> z = 0.
Proof.
  intros EM Hk Hzl Hz. assert (HM : M <> 0) by (rewrite EM; apply N.pow_nonzero; discriminate).
  assert (H0 : ((2 ^ k - 1) * z) mod M = 0).
  { pose proof (N.div_mod (z * 2 ^ k) M HM) as E.
    rewrite <- Hz in E. rewrite N.mul_sub_distr_r, N.mul_1_l, N.mul_comm.
    rewrite E. rewrite N.add_sub, N.mul_comm. apply N.mod_mul. exact HM. }
  subst M. apply odd_mul_cancel in H0.
  - rewrite N.mod_small in H0 by assumption. exact H0.
  - clear - Hk. destruct (N.succ_pred_pos k Hk). rewrite N.pow_succ_r'.
    apply odd_double_pred, N.pow_nonzero. discriminate.
Qed.
Lemma xorshl_inj k x y : 0 < k -> x < two64 -> y < two64 ->
  N.lxor x (shl64 x k) = N.lxor y (shl64 y k) -> x = y.
Proof.
  intros Hk Hx Hy H. apply lxor_cancel. set (z := N.lxor x y).
  assert (Hzl : z < two64) by (apply lxor_lt64; assumption).
  assert (Hs : shl64 z k = N.lxor (shl64 x k) (shl64 y k)) by exact (lxor_shl_gen 64 k x y).
  assert (Hz : z = shl64 z k).
  { apply lxor_cancel. rewrite Hs. unfold z. rewrite lxor_swap4, H. apply N.lxor_nilpotent. }
  unfold shl64 in Hz. rewrite N.shiftl_mul_pow2 in Hz.
  exact (shl_fixed_gen two64 64 k z eq_refl Hk Hzl Hz).
Qed.

Lemma shl64_lt x k : shl64 x k < two64.
Proof. apply mod_lt64. Qed.
Lemma mul64_lt x y : mul64 x y < two64.
Proof. apply mod_lt64. Qed.
#[local] Hint Resolve lxor_lt64 shr64_lt shl64_lt mul64_lt : u64.

(** ** xorshift64 *)
Lemma xs64_lt s : s < two64 -> xs64_next s < two64.
Proof. intros. apply mul64_lt. Qed.
Lemma xs64_inj x y : x < two64 -> y < two64 -> xs64_next x = xs64_next y -> x = y.
Proof.
  intros Hx Hy H. unfold xs64_next in H.
  apply mul64_inj in H; [|reflexivity|auto 6 with u64..].
  apply xorshr_inj in H; [|reflexivity].
  apply xorshl_inj in H; [|reflexivity|auto with u64..].
  apply xorshr_inj in H; [assumption|reflexivity].
Qed.
Lemma xs64_zero x : x < two64 -> (xs64_next x = 0 <-> x = 0).
Proof.
  intros Hx. split; [|intros ->; reflexivity].
  intros H. apply xs64_inj; [assumption|reflexivity|]. rewrite H. reflexivity.
Qed.

(** ** xorshift128 *)
Definition ok128 (s : N * N) : Prop := fst s < two64 /\ snd s < two64.
Lemma xs128_ok s : ok128 s -> ok128 (fst (xs128_next s)) /\ snd (xs128_next s) < two64.
Proof.
  destruct s as [x y]. intros [Hx Hy]. cbn in *. split; [split|]; cbn; auto 8 with u64.
  apply mod_lt64.
Qed.
Lemma lxor_inj_r c x y : N.lxor x c = N.lxor y c -> x = y.
Proof.
  intros H. rewrite <- (N.lxor_0_r x), <- (N.lxor_0_r y), <- (N.lxor_nilpotent c).
  rewrite <- !N.lxor_assoc, H. reflexivity.
Qed.
Lemma xs128_inj s t : ok128 s -> ok128 t -> fst (xs128_next s) = fst (xs128_next t) -> s = t.
Proof.
  destruct s as [x y], t as [x' y']. intros [Hx Hy] [Hx' Hy'] H. unfold xs128_next in H. cbn [fst snd] in *.
  apply pair_equal_spec in H as [<- H]. f_equal.
  apply lxor_inj_r in H.
  rewrite (N.lxor_assoc _ y), (N.lxor_assoc _ y), (N.lxor_comm y), (N.lxor_comm y), <- !N.lxor_assoc in H.
  apply lxor_inj_r in H. apply xorshr_inj in H; [|reflexivity].
  apply xorshl_inj in H; [assumption|reflexivity|assumption..].
Qed.
Lemma xs128_zero s : ok128 s -> (fst (xs128_next s) = (0, 0) <-> s = (0, 0)).
Proof.
  intros Hs. split; [|intros ->; reflexivity].
  intros H. apply xs128_inj; [assumption|split; reflexivity|]. rewrite H. reflexivity.
Qed.

Lemma xs64_never_zero seed n : seed < two64 -> seed <> 0 -> Nat.iter n xs64_next seed <> 0.
Proof.
  intros Hl Hn.
  assert (H : Nat.iter n xs64_next seed < two64 /\ Nat.iter n xs64_next seed <> 0).
  { induction n as [|n [IH1 IH2]]; [split; assumption|]. cbn. split; [apply xs64_lt; assumption|].
    intros E. apply (xs64_zero _ IH1) in E. contradiction. }
  apply H.
Qed.

Lemma xs128_never_zero' seed n :
  seed < two64 -> seed <> 0 ->
  Nat.iter n (fun s => fst (xs128_next s)) (xs128_seed seed) <> (0, 0).
Proof.
  intros Hl Hp.
  assert (H0 : ok128 (xs128_seed seed) /\ xs128_seed seed <> (0, 0)).
  { unfold xs128_seed. split.
    - split; cbn; apply xs64_lt; [assumption|apply xs64_lt; assumption].
    - intros E. apply pair_equal_spec in E as [E _]. apply (xs64_zero _ Hl) in E. contradiction. }
  assert (H : let s := Nat.iter n (fun s => fst (xs128_next s)) (xs128_seed seed) in ok128 s /\ s <> (0, 0)).
  { induction n as [|n [IH1 IH2]]; [exact H0|]. cbn [Nat.iter nat_rect]. cbn zeta. split; [apply xs128_ok, IH1|].
    intros E. apply (xs128_zero _ IH1) in E. contradiction. }
  apply H.
Qed.

(** ** xorshift1024 *)
Definition ok1024 (st : xs1024) : Prop :=
  length (x_s st) = 16%nat /\ Forall (fun x => x < two64) (x_s st) /\ x_p st < 16.

Lemma land15 x : N.land x 15 = x mod 16.
Proof. change 15 with (N.ones 4). rewrite N.land_ones. reflexivity. Qed.

Lemma nth_lt l i : Forall (fun x => x < two64) l -> nth i l 0 < two64.
Proof.
  intros H. destruct (nth_in_or_default i l 0) as [Hi| ->]; [|reflexivity].
  rewrite Forall_forall in H. apply H, elem_of_list_In, Hi.
Qed.

Lemma xs1024_ok st : ok1024 st -> ok1024 (fst (xs1024_next st)) /\ snd (xs1024_next st) < two64.
Proof.
  intros (Hl & Hf & Hp). unfold xs1024_next. cbn [fst snd]. split; [|apply mul64_lt].
  split; [cbn; rewrite insert_length; assumption|]. split.
  - cbn [x_s]. apply Forall_insert; [assumption|].
    pose proof (fun i => nth_lt (x_s st) i Hf). auto 10 with u64.
  - cbn [x_p]. rewrite land15. apply N.mod_lt. discriminate.
Qed.

Lemma nth_insert_same (l : list N) i v : (i < length l)%nat -> nth i (<[i := v]> l) 0 = v.
Proof.
  intros H. apply nth_lookup_Some with (d := 0). apply list_lookup_insert. assumption.
Qed.
Lemma nth_insert_other (l : list N) i j v : i <> j -> nth j (<[i := v]> l) 0 = nth j l 0.
Proof.
  intros H. rewrite !nth_lookup. rewrite list_lookup_insert_ne by assumption. reflexivity.
Qed.
Lemma list_eq_nth (l1 l2 : list N) :
  length l1 = length l2 -> (forall i, (i < length l1)%nat -> nth i l1 0 = nth i l2 0) -> l1 = l2.
Proof. intros. apply (nth_ext _ _ 0 0); assumption. Qed.

Lemma xs1024_inj s t : ok1024 s -> ok1024 t -> fst (xs1024_next s) = fst (xs1024_next t) -> s = t.
Proof.
  intros (Hl & Hf & Hp) (Hl' & Hf' & Hp') H.
  destruct s as [a p], t as [b q]. unfold xs1024_next in H. cbn [fst x_s x_p] in *.
  rewrite !land15 in H. rewrite (N.mod_small p 16), (N.mod_small q 16) in H by assumption.
  pose proof (f_equal x_s H) as Ha. pose proof (f_equal x_p H) as Hpq. cbn [x_s x_p] in Ha, Hpq. clear H.
  assert (p = q) as <-.
  { revert Hpq. clear - Hp Hp'. intros H.
    destruct (N.eq_dec p 15) as [->|], (N.eq_dec q 15) as [->|]; try reflexivity.
    - change ((15 + 1) mod 16) with 0 in H. rewrite N.mod_small in H by lia. lia.
    - change ((15 + 1) mod 16) with 0 in H. rewrite N.mod_small in H by lia. lia.
    - rewrite !N.mod_small in H by lia. lia. }
  f_equal. set (p1 := (p + 1) mod 16) in *.
  assert (Hp1 : p1 < 16) by (apply N.mod_lt; discriminate).
  assert (Hne : p1 <> p).
  { unfold p1. destruct (N.eq_dec p 15) as [->|]; [discriminate|]. rewrite N.mod_small by lia. lia. }
  assert (Hother : forall i, i <> N.to_nat p1 -> nth i a 0 = nth i b 0).
  { intros i Hi. apply (f_equal (fun l => nth i l 0)) in Ha.
    rewrite !nth_insert_other in Ha by congruence. exact Ha. }
  apply list_eq_nth; [congruence|]. intros i Hi.
  destruct (Nat.eq_dec i (N.to_nat p1)) as [->|Hi1]; [|auto].
  apply (f_equal (fun l => nth (N.to_nat p1) l 0)) in Ha.
  rewrite !nth_insert_same in Ha by lia.
  rewrite (Hother (N.to_nat p)) in Ha by lia.
  apply lxor_inj_r in Ha.
  set (c := nth (N.to_nat p) b 0) in *.
  rewrite (N.lxor_assoc _ c), (N.lxor_assoc _ c), (N.lxor_comm c), (N.lxor_comm c), <- !N.lxor_assoc in Ha.
  apply lxor_inj_r in Ha. apply xorshr_inj in Ha; [|reflexivity].
  apply xorshl_inj in Ha; [assumption|reflexivity|apply nth_lt; assumption..].
Qed.

Lemma nth_zeros i n : nth i (replicate n 0) 0 = 0.
Proof. revert i. induction n; intros [|i]; cbn; auto. Qed.

Lemma xs1024_zero s :
  ok1024 s -> (x_s (fst (xs1024_next s)) = replicate 16 0 <-> x_s s = replicate 16 0).
Proof.
  intros Hs. pose proof Hs as (Hl & Hf & Hp). split.
  - intros H.
    assert (Hz : ok1024 (XS1024 (replicate 16 0) (x_p s))).
    { split; [reflexivity|]. split; [|assumption]. repeat constructor. }
    assert (s = XS1024 (replicate 16 0) (x_p s)) as E.
    { apply xs1024_inj; [assumption..|].
      destruct s as [a p]. unfold xs1024_next in *. cbn [fst x_s x_p] in *. rewrite H. f_equal.
      rewrite !nth_zeros. clear.
      generalize (N.to_nat (N.land (N.land p 15 + 1) 15)) as i. intros i.
      change (N.lxor (N.lxor (N.lxor (N.lxor 0 (shl64 0 31)) 0) (shr64 (N.lxor 0 (shl64 0 31)) 1)) (shr64 0 30)) with 0.
      apply list_eq_nth; [rewrite insert_length; reflexivity|]. intros j Hj.
      destruct (Nat.eq_dec i j) as [<-|Hne].
      - rewrite nth_insert_same by assumption. rewrite nth_zeros. reflexivity.
      - rewrite nth_insert_other by assumption. reflexivity. }
    rewrite E. reflexivity.
  - intros H. destruct s as [a p]. cbn [x_s] in H. subst a. unfold xs1024_next. cbn [fst x_s x_p].
    rewrite !nth_zeros.
    generalize (N.to_nat (N.land (N.land p 15 + 1) 15)) as i. intros i.
    change (N.lxor (N.lxor (N.lxor (N.lxor 0 (shl64 0 31)) 0) (shr64 (N.lxor 0 (shl64 0 31)) 1)) (shr64 0 30)) with 0.
    apply list_eq_nth; [rewrite insert_length; reflexivity|]. intros j Hj.
    destruct (Nat.eq_dec i j) as [<-|Hne].
    + rewrite nth_insert_same by (rewrite insert_length in Hj; assumption). rewrite nth_zeros. reflexivity.
    + rewrite nth_insert_other by assumption. reflexivity.
Qed.

Lemma xs64_list_ok n s : s < two64 -> length (xs64_list n s) = n /\ Forall (fun x => x < two64) (xs64_list n s).
Proof.
  revert s. induction n as [|n IH]; intros s Hs; [split; [reflexivity|constructor]|].
  destruct (IH (xs64_next s) (xs64_lt s Hs)) as [H1 H2]. cbn. split; [lia|].
  constructor; [apply xs64_lt; assumption|assumption].
Qed.

Lemma not_all_zero l : length l = 16%nat -> l <> replicate 16 0 -> Exists (fun x => x <> 0) l.
Proof.
  intros Hl Hn. apply not_Forall_Exists; [intros x; destruct (N.eq_dec x 0); [left|right]; auto|].
  intros Hf. apply Hn. rewrite <- Hl.
  symmetry. apply replicate_as_elem_of. split; [reflexivity|].
  intros x Hx. rewrite Forall_forall in Hf. apply (Hf x Hx).
Qed.

Lemma xs1024_never_zero' seed n :
  seed < two64 -> seed <> 0 ->
  Exists (fun x => x <> 0) (x_s (Nat.iter n (fun s => fst (xs1024_next s)) (xs1024_seed seed))).
Proof.
  intros Hl Hp.
  assert (H0 : ok1024 (xs1024_seed seed) /\ x_s (xs1024_seed seed) <> replicate 16 0).
  { destruct (xs64_list_ok 16 seed Hl) as [H1 H2]. split; [split; [exact H1|split; [exact H2|reflexivity]]|].
    intros E. apply (f_equal (fun l => nth 0 l 1)) in E. 
    change (nth 0 (x_s (xs1024_seed seed)) 1) with (xs64_next seed) in E.
    apply (xs64_zero _ Hl) in E. contradiction. }
  assert (H : let s := Nat.iter n (fun s => fst (xs1024_next s)) (xs1024_seed seed) in
              ok1024 s /\ x_s s <> replicate 16 0).
  { induction n as [|n [IH1 IH2]]; [exact H0|]. cbn [Nat.iter nat_rect]. cbn zeta. split; [apply xs1024_ok, IH1|].
    intros E. apply (xs1024_zero _ IH1) in E. contradiction. }
  destruct H as [(H1 & _ & _) H2]. apply not_all_zero; assumption.
Qed.

Lemma seed_zero_stuck n :
  Nat.iter n xs64_next 0 = 0 /\
  Nat.iter n (fun s => fst (xs128_next s)) (xs128_seed 0) = (0, 0) /\
  snd (xs128_next (Nat.iter n (fun s => fst (xs128_next s)) (xs128_seed 0))) = 0 /\
  snd (xs1024_next (Nat.iter n (fun s => fst (xs1024_next s)) (xs1024_seed 0))) = 0.
Proof.
  assert (H1 : Nat.iter n xs64_next 0 = 0).
  { induction n as [|n IH]; [reflexivity|]. cbn [Nat.iter nat_rect]. unfold Nat.iter in IH. rewrite IH. reflexivity. }
  assert (H2 : Nat.iter n (fun s => fst (xs128_next s)) (xs128_seed 0) = (0, 0)).
  { induction n as [|n IH]; [reflexivity|]. cbn [Nat.iter nat_rect]. unfold Nat.iter in *. rewrite IH; [reflexivity|].
    clear. induction n as [|n IH]; [reflexivity|]. cbn [Nat.iter nat_rect]. unfold Nat.iter in IH. rewrite IH. reflexivity. }
  split; [exact H1|]. split; [exact H2|]. split; [rewrite H2; reflexivity|].
  assert (H3 : let s := Nat.iter n (fun s => fst (xs1024_next s)) (xs1024_seed 0) in ok1024 s /\ x_s s = replicate 16 0).
  { clear H1 H2. induction n as [|n [IH1 IH2]].
    - split; [|reflexivity]. destruct (xs64_list_ok 16 0 ltac:(reflexivity)) as [E1 E2].
      split; [exact E1|split; [exact E2|reflexivity]].
    - cbn [Nat.iter nat_rect]. cbn zeta. split; [apply xs1024_ok, IH1|]. apply (xs1024_zero _ IH1). exact IH2. }
  destruct H3 as [_ E]. cbn zeta in E.
  destruct (Nat.iter n _ (xs1024_seed 0)) as [l p]. cbn [x_s] in E. subst l.
  unfold xs1024_next. cbn [fst snd x_s x_p]. rewrite !nth_zeros. reflexivity.
Qed.

Lemma int63_bound x : x < two64 -> int63 x < 2 ^ 63.
Proof.
  intros H. unfold int63, shr64. rewrite N.shiftr_div_pow2. apply N.div_lt_upper_bound; [discriminate|].
  exact H.
Qed.

(** ** Surjectivity, by the pigeonhole principle on the building blocks *)
Lemma pigeon (M : N) (f : N -> N) :
  (forall x, x < M -> f x < M) -> (forall x y, x < M -> y < M -> f x = f y -> x = y) ->
  forall y, y < M -> exists x, x < M /\ f x = y.
Proof.
  intros Hb Hi y Hy.
  set (g := fun n => N.to_nat (f (N.of_nat n))).
  assert (Hg : bFun (N.to_nat M) g).
  { intros n Hn. unfold g. specialize (Hb (N.of_nat n) ltac:(lia)). lia. }
  assert (Hinj : bInjective (N.to_nat M) g).
  { intros a b Ha Hbb E. unfold g in E.
    apply Nat2N.inj, Hi; [lia|lia|]. apply N2Nat.inj, E. }
  apply bInjective_bSurjective in Hinj; [|assumption].
  destruct (Hinj (N.to_nat y)) as (n & Hn & E); [lia|].
  exists (N.of_nat n). split; [lia|]. unfold g in E. lia.
Qed.

Lemma xorshr_surj k z : 0 < k -> z < two64 -> exists x, x < two64 /\ N.lxor x (shr64 x k) = z.
Proof.
  intros Hk. apply (pigeon two64 (fun x => N.lxor x (shr64 x k))).
  - intros x Hx. auto with u64.
  - intros x y _ _. apply xorshr_inj. assumption.
Qed.
Lemma xorshl_surj k z : 0 < k -> z < two64 -> exists x, x < two64 /\ N.lxor x (shl64 x k) = z.
Proof.
  intros Hk. apply (pigeon two64 (fun x => N.lxor x (shl64 x k))).
  - intros x Hx. auto with u64.
  - intros x y. apply xorshl_inj. assumption.
Qed.
Lemma xs64_surj z : z < two64 -> exists x, x < two64 /\ xs64_next x = z.
Proof. apply (pigeon two64 xs64_next); [apply xs64_lt|apply xs64_inj]. Qed.

Lemma lxor_undo a b : N.lxor (N.lxor a b) b = a.
Proof. rewrite N.lxor_assoc, N.lxor_nilpotent. apply N.lxor_0_r. Qed.

Lemma mix_surj k1 k2 k3 y z : 0 < k1 -> 0 < k2 -> y < two64 -> z < two64 ->
  exists x, x < two64 /\
    let x' := N.lxor x (shl64 x k1) in
    N.lxor (N.lxor (N.lxor x' y) (shr64 x' k2)) (shr64 y k3) = z.
Proof.
  intros H1 H2 Hy Hz.
  destruct (xorshr_surj k2 (N.lxor (N.lxor z (shr64 y k3)) y) H2) as (x1 & Hx1 & E1); [auto 8 with u64|].
  destruct (xorshl_surj k1 x1 H1 Hx1) as (x & Hx & E).
  exists x. split; [assumption|]. cbn zeta. rewrite E.
  rewrite (N.lxor_assoc x1 y), (N.lxor_comm y), <- N.lxor_assoc, E1.
  rewrite lxor_undo. apply lxor_undo.
Qed.

Lemma xs128_surj t : ok128 t -> exists s, ok128 s /\ fst (xs128_next s) = t.
Proof.
  destruct t as [y z]. intros [Hy Hz]. cbn [fst snd] in *.
  destruct (mix_surj 23 17 26 y z) as (x & Hx & E); [reflexivity|reflexivity|assumption..|].
  exists (x, y). split; [split; assumption|]. unfold xs128_next. cbn [fst snd]. f_equal. exact E.
Qed.

Lemma xs1024_surj t : ok1024 t -> exists s, ok1024 s /\ fst (xs1024_next s) = t.
Proof.
  destruct t as [b q]. intros (Hl & Hf & Hq). cbn [x_s x_p] in *.
  set (p := (q + 15) mod 16).
  assert (Hp : p < 16) by (apply N.mod_lt; discriminate).
  assert (Hpq : (p + 1) mod 16 = q).
  { unfold p. destruct (N.eq_dec q 0) as [->|]; [reflexivity|].
    replace (q + 15) with (q - 1 + 1 * 16) by lia. rewrite N.mod_add by discriminate.
    rewrite (N.mod_small (q - 1)) by lia. rewrite N.mod_small; lia. }
  assert (Hne : q <> p).
  { intros E. rewrite <- E in Hpq. destruct (N.eq_dec q 15) as [->|]; [discriminate|].
    rewrite N.mod_small in Hpq; lia. }
  destruct (mix_surj 31 1 30 (nth (N.to_nat p) b 0) (nth (N.to_nat q) b 0)) as (x & Hx & E);
    [reflexivity|reflexivity|apply nth_lt; assumption..|].
  exists (XS1024 (<[N.to_nat q := x]> b) p). split.
  - split; [cbn; rewrite insert_length; assumption|]. split; [|assumption].
    apply Forall_insert; assumption.
  - unfold xs1024_next. cbn [fst x_s x_p].
    rewrite !land15, (N.mod_small p) by assumption. rewrite Hpq.
    rewrite nth_insert_same by lia. rewrite nth_insert_other by lia.
    cbn zeta in E. rewrite E. f_equal.
    rewrite list_insert_insert. apply list_insert_id.
    apply nth_lookup_Some with (d := 0); [|reflexivity] || idtac.
    rewrite nth_lookup. destruct (lookup_lt_is_Some_2 b (N.to_nat q)) as [v Hv]; [lia|]. rewrite Hv. reflexivity.
Qed.

(** ** lcg *)
Lemma lcg_inj x y : x < two64 -> y < two64 -> lcg_step x = lcg_step y -> x = y.
Proof.
  intros Hx Hy H. unfold lcg_step, add64 in H.
  assert (E : mul64 x lcg_a = mul64 y lcg_a).
  { unfold mul64 in *. rewrite (N.mul_comm lcg_a x), (N.mul_comm lcg_a y) in H.
    pose proof (mod_lt64 (x * lcg_a)) as H1. pose proof (mod_lt64 (y * lcg_a)) as H2.
    set (u := (x * lcg_a) mod two64) in *. set (v := (y * lcg_a) mod two64) in *.
    unfold lcg_c, two64 in *. change (2 ^ 64) with 18446744073709551616 in *.
    pose proof (N.div_mod (u + 1442695040888963407) 18446744073709551616 ltac:(discriminate)).
    pose proof (N.div_mod (v + 1442695040888963407) 18446744073709551616 ltac:(discriminate)).
    pose proof (N.mod_lt (u + 1442695040888963407) 18446744073709551616 ltac:(discriminate)).
    set (q1 := (u + 1442695040888963407) / 18446744073709551616) in *.
    set (q2 := (v + 1442695040888963407) / 18446744073709551616) in *.
    rewrite H in *. lia. }
  apply mul64_inj in E; [assumption|reflexivity|assumption..].
Qed.

(** ** Ids *)
Lemma counter_after_eq inc c k : c < two64 -> counter_after inc c k = (c + N.of_nat k * inc) mod two64.
Proof.
  intros Hc. induction k as [|k IH].
  - cbn. rewrite N.mul_0_l, N.add_0_r, N.mod_small by assumption. reflexivity.
  - cbn [counter_after]. unfold new_id, add64. cbn [fst]. rewrite IH.
    rewrite N.add_mod_idemp_l by discriminate. f_equal. lia.
Qed.

Lemma nth_id_eq inc c k : c < two64 -> nth_id inc c k = ((c + N.of_nat (S k) * inc) mod two64) / 2.
Proof.
  intros Hc. unfold nth_id.
  change (snd (new_id inc (counter_after inc c k))) with (shr64 (counter_after inc c (S k)) 1).
  rewrite counter_after_eq by assumption. unfold shr64. rewrite N.shiftr_div_pow2. reflexivity.
Qed.

Lemma nth_id_nonneg inc c k : c < two64 -> nth_id inc c k < 2 ^ 63.
Proof.
  intros Hc. rewrite nth_id_eq by assumption. apply N.div_lt_upper_bound; [discriminate|].
  apply mod_lt64.
Qed.

Lemma id_inc_odd b : N.odd (snd (id_init b)) = true.
Proof. unfold id_init. cbn. rewrite <- N.bit0_odd, N.lor_spec. apply orb_true_r. Qed.
Lemma id_inc_odd_fallback r1 r2 : N.odd (snd (id_init_fallback r1 r2)) = true.
Proof. unfold id_init_fallback. cbn. rewrite <- N.bit0_odd, N.lor_spec. apply orb_true_r. Qed.

Lemma mod_sub_zero x y : x <= y -> x mod two64 = y mod two64 -> (y - x) mod two64 = 0.
Proof. exact (mod_sub_zero_gen two64 x y two64_nz). Qed.

Lemma counter_distinct inc c i j :
  N.odd inc = true -> c < two64 -> (i < j)%nat -> N.of_nat j - N.of_nat i < two64 ->
  counter_after inc c i <> counter_after inc c j.
Proof.
  intros Ho Hc Hij Hw E. rewrite !counter_after_eq in E by assumption.
  apply mod_sub_zero in E; [|nia].
  replace (c + N.of_nat j * inc - (c + N.of_nat i * inc)) with (inc * (N.of_nat j - N.of_nat i)) in E by nia.
  apply (odd_mul_cancel _ _ 64) in E; [|assumption].
  fold two64 in E. rewrite N.mod_small in E by assumption. lia.
Qed.

Lemma id_half inc c i :
  c < two64 ->
  counter_after inc c (S i) = 2 * nth_id inc c i \/ counter_after inc c (S i) = 2 * nth_id inc c i + 1.
Proof.
  intros Hc. rewrite nth_id_eq, counter_after_eq by assumption.
  set (x := (c + N.of_nat (S i) * inc) mod two64).
  pose proof (N.div_mod x 2 ltac:(discriminate)). pose proof (N.mod_lt x 2 ltac:(discriminate)). lia.
Qed.

Lemma id_at_most_twice inc c i j k :
  N.odd inc = true -> c < two64 -> (i < j)%nat -> (j < k)%nat -> N.of_nat k - N.of_nat i < two64 ->
  ~ (nth_id inc c i = nth_id inc c j /\ nth_id inc c j = nth_id inc c k).
Proof.
  intros Ho Hc Hij Hjk Hw [E1 E2].
  pose proof (counter_distinct inc c (S i) (S j) Ho Hc ltac:(lia) ltac:(lia)).
  pose proof (counter_distinct inc c (S j) (S k) Ho Hc ltac:(lia) ltac:(lia)).
  pose proof (counter_distinct inc c (S i) (S k) Ho Hc ltac:(lia) ltac:(lia)).
  destruct (id_half inc c i Hc), (id_half inc c j Hc), (id_half inc c k Hc); lia.
Qed.

Lemma wrap_gen M x y d : x < M -> y < M -> d < M -> y = (x + d) mod M -> y = x + d \/ y + M = x + d.
Proof.
  intros Hi Hj Hd Hs. destruct (N.lt_ge_cases (x + d) M) as [Hlt|Hge].
  - left. rewrite N.mod_small in Hs by assumption. assumption.
  - right. assert ((x + d) mod M = x + d - M) as Em by (symmetry; apply N.mod_unique with 1; lia). lia.
Qed.
Lemma halves_gen M x y d m : y = x + d \/ y + M = x + d -> d < M -> x = 2 * m \/ x = 2 * m + 1 -> y = 2 * m \/ y = 2 * m + 1 -> d = 0 \/ d = 1 \/ d = M - 1.
Proof. lia. Qed.
Lemma id_collision inc c i j :
  c < two64 -> (i < j)%nat -> nth_id inc c i = nth_id inc c j ->
  let d := (N.of_nat (j - i) * inc) mod two64 in d = 0 \/ d = 1 \/ d = two64 - 1.
Proof.
  intros Hc Hij E d.
  assert (Hs : counter_after inc c (S j) = (counter_after inc c (S i) + d) mod two64).
  { unfold d. rewrite !counter_after_eq by assumption.
    rewrite N.add_mod_idemp_r by discriminate. rewrite N.add_mod_idemp_l by discriminate. f_equal. nia. }
  assert (Hd : d < two64) by apply mod_lt64.
  assert (Hi : counter_after inc c (S i) < two64) by (rewrite counter_after_eq by assumption; apply mod_lt64).
  assert (Hj : counter_after inc c (S j) < two64) by (rewrite counter_after_eq by assumption; apply mod_lt64).
  eapply halves_gen; [exact (wrap_gen two64 _ _ d Hi Hj Hd Hs)|exact Hd|apply id_half, Hc|rewrite E; apply id_half, Hc].
Qed.

(** Every id is hit: the counter runs through all residues. *)
Lemma odd_inverse inc : N.odd inc = true -> exists u, (u * inc) mod two64 = 1.
Proof.
  intros Ho.
  assert (Hr : rel_prime (Z.of_N inc) (2 ^ 64)%Z).
  { apply Zpow_facts.rel_prime_Zpower_r; [lia|].
    apply rel_prime_sym, prime_rel_prime; [apply prime_2|].
    intros [q Hq]. apply N.odd_spec in Ho as [m Hm]. lia. }
  apply rel_prime_bezout in Hr. destruct Hr as [u v Huv].
  exists (Z.to_N (u mod 2 ^ 64)). apply N2Z.inj. rewrite N2Z.inj_mod, N2Z.inj_mul.
  rewrite Z2N.id by (apply Z.mod_pos_bound; lia).
  change (Z.of_N two64) with (2 ^ 64)%Z.
  rewrite Z.mul_mod_idemp_l by lia.
  replace (u * Z.of_N inc)%Z with (1 + (- v) * 2 ^ 64)%Z by lia.
  rewrite Z.mod_add by lia. reflexivity.
Qed.

Lemma counter_hits inc c s x :
  N.odd inc = true -> c < two64 -> x < two64 ->
  exists k, N.of_nat k < two64 /\ counter_after inc c (S (s + k)) = x.
Proof.
  intros Ho Hc Hx. destruct (odd_inverse inc Ho) as [u Hu].
  set (c1 := counter_after inc c (S s)).
  assert (Hc1 : c1 < two64) by (unfold c1; rewrite counter_after_eq by assumption; apply mod_lt64).
  set (k := ((x + two64 - c1) * u) mod two64).
  exists (N.to_nat k). assert (Hk : k < two64) by apply mod_lt64. rewrite N2Nat.id. split; [assumption|].
  assert (E : counter_after inc c (S (s + N.to_nat k)) = (c1 + k * inc) mod two64).
  { unfold c1. rewrite !counter_after_eq by assumption.
    rewrite N.add_mod_idemp_l by discriminate. f_equal. nia. }
  rewrite E. unfold k.
  rewrite <- N.add_mod_idemp_r by discriminate.
  rewrite N.mul_mod_idemp_l by discriminate.
  rewrite <- N.mul_assoc. rewrite <- N.mul_mod_idemp_r by discriminate. rewrite Hu, N.mul_1_r.
  rewrite N.add_mod_idemp_r by discriminate.
  replace (c1 + (x + two64 - c1)) with (x + 1 * two64) by lia.
  rewrite N.mod_add by discriminate. apply N.mod_small. assumption.
Qed.

Lemma id_exactly_twice inc c s v :
  N.odd inc = true -> c < two64 -> v < 2 ^ 63 ->
  exists i j, i <> j /\ N.of_nat i < two64 /\ N.of_nat j < two64 /\
    nth_id inc c (s + i) = v /\ nth_id inc c (s + j) = v.
Proof.
  intros Ho Hc Hv.
  assert (Hv2 : 2 * v + 1 < two64).
  { unfold two64. change (2 ^ 64) with (2 * 2 ^ 63). lia. }
  destruct (counter_hits inc c s (2 * v) Ho Hc ltac:(lia)) as (i & Hi & Ei).
  destruct (counter_hits inc c s (2 * v + 1) Ho Hc ltac:(lia)) as (j & Hj & Ej).
  exists i, j. split; [intros ->; lia|]. split; [assumption|]. split; [assumption|].
  split; destruct (id_half inc c (s + i) Hc), (id_half inc c (s + j) Hc); lia.
Qed.

Lemma lcg_surj z : z < two64 -> exists x, x < two64 /\ lcg_step x = z.
Proof. apply (pigeon two64 lcg_step); [intros; apply mod_lt64|apply lcg_inj]. Qed.
Lemma lcg_out_lt l : snd (lcg_uint64 l) < two64 /\ fst (lcg_uint64 l) < two64.
Proof.
  split; [|apply mod_lt64]. unfold lcg_uint64. cbn [fst snd].
  apply lt_two64_shiftr. rewrite !N.shiftr_lor, N.shiftr_land.
  assert (E : N.shiftr lcg_h 64 = 0) by reflexivity. rewrite E, N.land_0_r.
  assert (E2 : N.shiftr (shr64 (lcg_step l) 32) 64 = 0).
  { apply lt_two64_shiftr, shr64_lt, mod_lt64. }
  rewrite E2. reflexivity.
Qed.

Lemma id_config_ok c inc : id_config (c, inc) -> c < two64 /\ N.odd inc = true.
Proof.
  intros [(b & Hb & E)|(r1 & r2 & H1 & H2 & E)].
  - unfold id_init in E. apply pair_equal_spec in E as [-> ->]. split; [apply shr64_lt, Hb|apply (id_inc_odd b)].
  - unfold id_init_fallback in E. apply pair_equal_spec in E as [-> ->].
    split; [|apply (id_inc_odd_fallback r1 r2)]. eapply N.lt_trans; [exact H1|reflexivity].
Qed.

Lemma lor3 x : x <= N.lor x 3 /\ 2 < N.lor x 3.
Proof.
  split.
  - apply N.ldiff_le. apply N.bits_inj. intros i. rewrite N.ldiff_spec, N.lor_spec, N.bits_0.
    destruct (N.testbit x i); [|reflexivity]. reflexivity.
  - apply N.lt_le_trans with 3; [reflexivity|].
    apply N.ldiff_le. apply N.bits_inj. intros i. rewrite N.ldiff_spec, N.lor_spec, N.bits_0.
    destruct (N.testbit x i), (N.testbit 3 i); reflexivity.
Qed.

Lemma lor3_lt x : x < 2 ^ 63 -> N.lor x 3 < 2 ^ 63.
Proof.
  intros H.
  assert (E : forall y, y < 2 ^ 63 <-> N.shiftr y 63 = 0).
  { intros y. rewrite N.shiftr_div_pow2. split; intros Hy; [apply N.div_small, Hy|].
    apply N.div_small_iff in Hy; [assumption|discriminate]. }
  apply E. rewrite N.shiftr_lor. apply E in H. rewrite H. reflexivity.
Qed.

Lemma id_inc_range c inc : id_config (c, inc) -> 2 < inc /\ inc < 2 ^ 63.
Proof.
  intros [(b & Hb & E)|(r1 & r2 & H1 & H2 & E)].
  - unfold id_init in E. apply pair_equal_spec in E as [_ ->]. split; [apply lor3|apply lor3_lt, int63_bound, Hb].
  - unfold id_init_fallback in E. apply pair_equal_spec in E as [_ ->]. split; [apply lor3|apply lor3_lt, H2].
Qed.

Lemma ids_adjacent c inc k : id_config (c, inc) -> nth_id inc c k <> nth_id inc c (S k).
Proof.
  intros H E. destruct (id_config_ok c inc H) as [Hc Ho]. destruct (id_inc_range c inc H) as [H1 H2].
  apply id_collision in E; [|assumption|lia].
  replace (S k - k)%nat with 1%nat in E by lia. change (N.of_nat 1) with 1 in E. rewrite N.mul_1_l in E.
  assert (Hm : inc mod two64 = inc).
  { apply N.mod_small. eapply N.lt_trans; [exact H2|reflexivity]. }
  cbn zeta in E. rewrite Hm in E. unfold two64 in E. change (2 ^ 64 - 1) with 18446744073709551615 in E.
  change (2 ^ 63) with 9223372036854775808 in H2. lia.
Qed.

Lemma ids_unique_refuted :
  ~ (forall c inc i j, id_config (c, inc) -> (i < j)%nat -> N.of_nat j < 2 ^ 64 -> nth_id inc c i <> nth_id inc c j).
Proof.
  intros H. apply (H 7905747460161236407 7905747460161236407 0%nat 7%nat); [|lia|reflexivity|vm_compute; reflexivity].
  left. exists 15811494920322472814. split; reflexivity.
Qed.

Lemma permutes_intro {S} (valid : S -> Prop) (next : S -> S) :
  (forall s, valid s -> valid (next s)) ->
  (forall s t, valid s -> valid t -> next s = next t -> s = t) ->
  (forall t, valid t -> exists s, valid s /\ next s = t) -> permutes valid next.
Proof.
  intros H1 H2 H3. split; [exact H1|]. intros t Ht. destruct (H3 t Ht) as (s & Hs & E).
  exists s. repeat split; auto. intros s' Hs' E'. apply H2; congruence.
Qed.

