(** The period of xorshift128: the step is linear over GF(2), so the state after k draws is
    a polynomial in the step; powers are computed modulo its characteristic polynomial. *)
From Verif Require Import Base RngModel RngSpec RngProofs PeriodSpec.
From Coq Require Import Znumtheory Zpow_facts ZArith Lia.
Local Open Scope N_scope.

(** ** Polynomials over GF(2) in a linear map *)
Section poly.
  Context {S : Type} (z : S) (x : S -> S -> S) (T : S -> S).
  Hypothesis xA : forall a b c, x a (x b c) = x (x a b) c.
  Hypothesis xC : forall a b, x a b = x b a.
  Hypothesis xz : forall a, x z a = a.
  Hypothesis xx : forall a, x a a = z.
  Hypothesis Tx : forall a b, T (x a b) = x (T a) (T b).

  Lemma T_z : T z = z.
  Proof using xx Tx. rewrite <- (xx z) at 1. rewrite Tx. apply xx. Qed.
  Lemma x_z a : x a z = a.
  Proof using xC xz. rewrite xC. apply xz. Qed.
  Lemma x4 a b c d : x (x a b) (x c d) = x (x a c) (x b d).
  Proof using xA xC. rewrite !xA. f_equal. rewrite <- !xA. f_equal. apply xC. Qed.
  Lemma x_drop a b : x a (x a b) = b.
  Proof using xA xx xz. rewrite xA, xx. apply xz. Qed.

  (** bit i of the polynomial is the coefficient of T^i *)
  Fixpoint evp (p : positive) (s : S) : S :=
    match p with
    | xH => s
    | xO p => evp p (T s)
    | xI p => x s (evp p (T s))
    end.
  Definition ev (p : N) (s : S) : S := match p with N0 => z | Npos p => evp p s end.

  Lemma evp_x p a b : evp p (x a b) = x (evp p a) (evp p b).
  Proof using xA xC Tx.
    revert a b. induction p as [p IH|p IH|]; intros a b; cbn [evp]; [|rewrite Tx; apply IH|reflexivity].
    rewrite Tx, IH. apply x4.
  Qed.
  Lemma ev_x p a b : ev p (x a b) = x (ev p a) (ev p b).
  Proof using xA xC xz Tx. destruct p as [|p]; [cbn; symmetry; apply xz|apply evp_x]. Qed.
  Lemma evp_T p s : evp p (T s) = T (evp p s).
  Proof using Tx. revert s. induction p as [p IH|p IH|]; intros s; cbn [evp]; [rewrite Tx, IH; reflexivity|apply IH|reflexivity]. Qed.
  Lemma ev_T p s : ev p (T s) = T (ev p s).
  Proof using xx Tx. destruct p as [|p]; [symmetry; apply T_z|apply evp_T]. Qed.
  Lemma ev_z p : ev p z = z.
  Proof using xA xC xx xz Tx. rewrite <- (xx z) at 1. rewrite ev_x. apply xx. Qed.
  Lemma ev_succ_double p s : ev (N.succ_double p) s = x s (ev p (T s)).
  Proof using xC xz. destruct p; cbn; [symmetry; apply x_z|reflexivity]. Qed.
  Lemma ev_double p s : ev (N.double p) s = ev p (T s).
  Proof using. destruct p; reflexivity. Qed.
  Lemma ev_lxor p q s : ev (N.lxor p q) s = x (ev p s) (ev q s).
  Proof using xA xC xx xz Tx.
    destruct p as [|p], q as [|q]; [symmetry; apply xz|symmetry; apply xz|symmetry; apply x_z|].
    cbn [N.lxor]. revert q s. induction p as [p IH|p IH|]; intros [q|q|] s; cbn [Pos.lxor].
    - rewrite ev_double, IH. cbn [ev evp]. rewrite x4, xx, xz. reflexivity.
    - rewrite ev_succ_double, IH. cbn [ev evp]. apply xA.
    - cbn [ev evp]. rewrite (xC s), <- xA, xx, x_z. reflexivity.
    - rewrite ev_succ_double, IH. cbn [ev evp]. rewrite !xA. f_equal. apply xC.
    - rewrite ev_double, IH. reflexivity.
    - cbn [ev evp]. apply xC.
    - cbn [ev evp]. rewrite x_drop. reflexivity.
    - reflexivity.
    - cbn [ev evp]. symmetry. apply xx.
  Qed.

  (** Arithmetic modulo a polynomial [P] of degree [d]. *)
  Variables (d P : N).
  Definition red (a : N) : N := if N.testbit a d then N.lxor a P else a.
  Fixpoint mulp (p : positive) (q : N) : N :=
    match p with
    | xH => q
    | xO p => red (N.double (mulp p q))
    | xI p => N.lxor q (red (N.double (mulp p q)))
    end.
  Definition mul (p q : N) : N := match p with N0 => 0 | Npos p => mulp p q end.
  (** x^k *)
  Fixpoint powp (k : positive) (b : N) : N :=
    match k with
    | xH => b
    | xO k => let a := powp k b in mul a a
    | xI k => let a := powp k b in mul b (mul a a)
    end.

  Definition kills (s : S) : Prop := ev P s = z.
  Lemma kills_T s : kills s -> kills (T s).
  Proof using xx Tx. unfold kills. intros H. rewrite ev_T, H. apply T_z. Qed.
  Lemma ev_red a s : kills s -> ev (red a) s = ev a s.
  Proof using xA xC xx xz Tx. intros H. unfold red. destruct (N.testbit a d); [|reflexivity]. rewrite ev_lxor, H. apply x_z. Qed.
  Lemma ev_mul p q s : kills s -> ev (mul p q) s = ev p (ev q s).
  Proof using xA xC xx xz Tx.
    intros H. destruct p as [|p]; [reflexivity|]. cbn [mul ev]. induction p as [p IH|p IH|]; cbn [mulp evp].
    - rewrite ev_lxor, ev_red, ev_double, ev_T, IH by assumption. rewrite evp_T. reflexivity.
    - rewrite ev_red, ev_double, ev_T, IH by assumption. symmetry. apply evp_T.
    - reflexivity.
  Qed.
  Lemma kills_ev q s : kills s -> kills (ev q s).
  Proof using xA xC xx xz Tx.
    unfold kills. intros H. destruct q as [|q]; [apply ev_z|]. cbn [ev]. revert s H.
    induction q as [q IH|q IH|]; intros s H; cbn [evp]; [|apply IH, kills_T, H|exact H].
    rewrite ev_x, H, xz. apply IH, kills_T, H.
  Qed.
  Lemma ev_powp k b s : kills s -> ev (powp k b) s = Pos.iter (ev b) s k.
  Proof using xA xC xx xz Tx.
    revert s. induction k as [k IH|k IH|]; intros s H; cbn [powp Pos.iter]; [| |reflexivity].
    - assert (E : ev (mul b (mul (powp k b) (powp k b))) s = ev b (ev (powp k b) (ev (powp k b) s))).
      { rewrite ev_mul, ev_mul by assumption. reflexivity. }
      rewrite E, (IH s H), IH; [reflexivity|]. rewrite <- IH by exact H. apply kills_ev, H.
    - rewrite ev_mul, (IH s H), IH by assumption || (rewrite <- IH by exact H; apply kills_ev, H). reflexivity.
  Qed.
  Lemma ev_2 s : ev 2 s = T s.
  Proof using. reflexivity. Qed.
  Lemma ev_pow k s : kills s -> ev (powp k 2) s = Pos.iter T s k.
  Proof using xA xC xx xz Tx. intros H. rewrite ev_powp by exact H. reflexivity. Qed.

  (** If x^k - 1 is invertible modulo P, no vector but zero returns after k steps. *)
  Lemma no_return k u s : kills s -> mul u (N.lxor (powp k 2) 1) = 1 -> Pos.iter T s k = s -> s = z.
  Proof using xA xC xx xz Tx.
    intros H Hu E. change s with (ev 1 s) at 1. rewrite <- Hu, ev_mul, ev_lxor, ev_pow, E by exact H.
    cbn [ev evp]. rewrite xx. apply ev_z.
  Qed.
End poly.

(** ** Fermat, and a primality criterion *)
Section fermat.
  Local Open Scope Z_scope.
  Definition zprod (l : list Z) : Z := fold_right Z.mul 1 l.
  Lemma zprod_perm l l' : l ≡ₚ l' -> zprod l = zprod l'.
  Proof. induction 1; cbn; unfold zprod in *; try lia; nia. Qed.
  Definition upto (n : nat) : list Z := map (fun i => Z.of_nat i + 1) (seq 0 n).
  Lemma zprod_scale p a l : (zprod (map (fun i => (a * i) mod p) l)) mod p = (a ^ Z.of_nat (length l) * zprod l) mod p.
  Proof.
    induction l as [|i l IH]; [cbn; f_equal; lia|].
    cbn [map zprod fold_right length]. fold (zprod (map (fun i => (a * i) mod p) l)) (zprod l).
    rewrite Zmult_mod_idemp_l, <- Zmult_mod_idemp_r, IH, Zmult_mod_idemp_r. f_equal.
    rewrite Nat2Z.inj_succ, Z.pow_succ_r by lia. ring.
  Qed.
  Lemma upto_elem n i : i ∈ upto n <-> 1 <= i <= Z.of_nat n.
  Proof.
    unfold upto. rewrite elem_of_list_fmap. split.
    - intros (j & -> & Hj). apply elem_of_seq in Hj. lia.
    - intros H. exists (Z.to_nat (i - 1)). split; [lia|]. apply elem_of_seq. lia.
  Qed.
  Lemma upto_nodup n : NoDup (upto n).
  Proof. unfold upto. apply NoDup_fmap_2_strong; [intros i j _ _ H; lia|apply NoDup_seq]. Qed.
  Lemma prime_unit p i : prime p -> 1 <= i < p -> rel_prime i p.
  Proof. intros Hp Hi. apply rel_prime_le_prime; assumption. Qed.
  Lemma zprod_unit p l : prime p -> Forall (fun i => rel_prime i p) l -> rel_prime (zprod l) p.
  Proof.
    intros Hp. induction 1 as [|i l Hi _ IH]; cbn; [apply rel_prime_1|].
    apply rel_prime_sym, rel_prime_mult; apply rel_prime_sym; assumption.
  Qed.
  Lemma fermat p a : prime p -> rel_prime a p -> (a ^ (p - 1)) mod p = 1.
  Proof.
    intros Hp Ha. pose proof (prime_ge_2 p Hp) as H2.
    set (n := Z.to_nat (p - 1)). set (f := fun i => (a * i) mod p).
    assert (P : map f (upto n) ≡ₚ upto n).
    { apply submseteq_Permutation_length_eq.
      - rewrite map_length. reflexivity.
      - apply NoDup_submseteq; [|].
        + apply (NoDup_fmap_2_strong f); [|apply upto_nodup].
          intros i j Hi Hj E. apply upto_elem in Hi, Hj. unfold f in E.
          assert (D : (p | a * i - a * j)) by (apply Z.mod_divide; [lia|]; rewrite Zminus_mod, E, Z.sub_diag; apply Z.mod_0_l; lia).
          rewrite <- Z.mul_sub_distr_l in D. apply Gauss in D; [|apply rel_prime_sym, Ha].
          destruct D as [q D]. assert (q = 0) by nia. lia.
        + intros y Hy. apply elem_of_list_fmap in Hy as (i & -> & Hi). apply upto_elem in Hi. apply upto_elem. unfold f.
          pose proof (Z.mod_pos_bound (a * i) p ltac:(lia)) as B.
          assert ((a * i) mod p <> 0).
          { intros E. apply Z.mod_divide in E; [|lia]. apply Gauss in E; [|apply rel_prime_sym, Ha].
            destruct E as [q E]. assert (0 < q) by nia. nia. }
          lia. }
    assert (L : length (upto n) = n) by (unfold upto; rewrite map_length; apply seq_length).
    pose proof (zprod_scale p a (upto n)) as E. fold f in E. rewrite (zprod_perm _ _ P), L in E.
    replace (Z.of_nat n) with (p - 1) in E by lia.
    assert (D : (p | zprod (upto n) * (a ^ (p - 1) - 1))).
    { apply Z.mod_divide; [lia|]. rewrite Z.mul_sub_distr_l, Z.mul_1_r, Zminus_mod, (Z.mul_comm (zprod _)), <- E, Z.sub_diag. apply Z.mod_0_l; lia. }
    apply Gauss in D.
    - destruct D as [q D]. replace (a ^ (p - 1)) with (1 + q * p) by lia. rewrite Z.mod_add by lia. apply Z.mod_1_l. lia.
    - apply rel_prime_sym, zprod_unit; [exact Hp|]. apply Forall_forall. intros i Hi. apply upto_elem in Hi. apply prime_unit; [exact Hp|lia].
  Qed.

  (** If b^q = 1 but b - 1 is a unit, every prime factor is 1 modulo q. *)
  Lemma pow_mod_divide b e p m : (p | m) -> 1 < p -> (b ^ e) mod m = 1 -> 0 < m -> (b ^ e) mod p = 1.
  Proof.
    intros [k ->] Hp H Hm. rewrite <- (Z.mod_1_l p) by lia. rewrite <- H.
    assert (k <> 0) by lia. rewrite (Z.mul_comm k p), Z.rem_mul_r by nia. rewrite (Z.mul_comm p), Z.mod_add by lia. symmetry. apply Z.mod_mod. lia.
  Qed.
  Lemma factor_1_mod m q b p : prime q -> prime p -> (p | m) -> 1 < m -> (b ^ q) mod m = 1 -> rel_prime (b - 1) m -> (q | p - 1).
  Proof.
    intros Hq Hp Hd Hm E1 E2. pose proof (prime_ge_2 p Hp). pose proof (prime_ge_2 q Hq).
    assert (E1' : (b ^ q) mod p = 1) by (apply (pow_mod_divide b q p m); [exact Hd|lia|exact E1|lia]).
    assert (Hb : rel_prime b p).
    { apply rel_prime_sym, prime_rel_prime; [exact Hp|]. intros [k ->].
      replace ((k * p) ^ q) with (k * p * (k * p) ^ (q - 1)) in E1'
        by (replace q with (Z.succ (q - 1)) at 2 by lia; rewrite Z.pow_succ_r by lia; reflexivity).
      replace (k * p * (k * p) ^ (q - 1)) with (k * (k * p) ^ (q - 1) * p) in E1' by ring. rewrite Z.mod_mul in E1' by lia. lia. }
    destruct (Zdivide_dec q (p - 1)) as [|N]; [assumption|]. exfalso.
    assert (R : rel_prime q (p - 1)) by (apply prime_rel_prime; assumption).
    assert (B1 : ~ (p | b - 1)).
    { intros D. destruct E2 as [_ _ E2]. apply E2 in Hd; [|exact D]. apply Z.divide_pos_le in Hd; lia. }
    apply B1. destruct (Z.eq_dec p 2) as [->|Np].
    { apply Z.mod_divide; [lia|]. rewrite Zminus_mod. apply rel_prime_mod in Hb; [|lia].
      pose proof (Z.mod_pos_bound b 2 ltac:(lia)) as Bb. assert (b mod 2 = 0 \/ b mod 2 = 1) as [E|E] by lia; rewrite E in *; [|reflexivity].
      exfalso. destruct Hb as [_ _ Hb]. specialize (Hb 2 (Z.divide_0_r 2) (Z.divide_refl 2)). apply Z.divide_pos_le in Hb; lia. }
    assert (F : forall k, 0 <= k -> (b ^ (k * (p - 1))) mod p = 1).
    { intros k Hk. rewrite Z.mul_comm, Z.pow_mul_r by lia. rewrite Zpower_mod by lia. rewrite fermat by assumption. rewrite Z.pow_1_l by lia. apply Z.mod_1_l. lia. }
    assert (G : forall k, 0 <= k -> (b ^ (k * q)) mod p = 1).
    { intros k Hk. rewrite Z.mul_comm, Z.pow_mul_r by lia. rewrite Zpower_mod by lia. rewrite E1'. rewrite Z.pow_1_l by lia. apply Z.mod_1_l. lia. }
    destruct (rel_prime_bezout _ _ R) as [u v Huv].
    set (t := u / (p - 1)). set (u' := u mod (p - 1)). assert (Hu' : 0 <= u' < p - 1) by (apply Z.mod_pos_bound; lia).
    assert (D : u = (p - 1) * t + u') by (apply Z.div_mod; lia).
    set (w := - v - t * q). assert (X : u' * q = 1 + w * (p - 1)) by (unfold w; clearbody t u'; rewrite D in Huv; clear -Huv; lia).
    clearbody w. clear D Huv. clearbody u'.
    assert (Hw : 0 <= w).
    { destruct (Z.le_gt_cases 0 w) as [|K]; [assumption|]. assert (0 <= u' * q) by (apply Z.mul_nonneg_nonneg; lia). assert (w * (p - 1) <= - 1 * (p - 1)) by (apply Z.mul_le_mono_nonneg_r; lia). lia. }
    pose proof (G u' ltac:(lia)) as G1. assert (W : 0 <= w * (p - 1)) by (apply Z.mul_nonneg_nonneg; lia). rewrite X in G1. rewrite (Z.pow_add_r b 1 (w * (p - 1)) ltac:(lia) W), Z.pow_1_r in G1.
    rewrite Zmult_mod, F, Z.mul_1_r, Z.mod_mod in G1 by lia.
    apply Z.mod_divide; [lia|]. rewrite Zminus_mod, G1, Z.mod_1_l by lia. apply Z.mod_0_l. lia.
  Qed.

  (** Trial division. *)
  Fixpoint nodiv (n : nat) (d m : Z) : bool :=
    match n with O => true | S n' => negb (m mod d =? 0) && nodiv n' (d + 1) m end.
  Lemma nodiv_spec n d m : nodiv n d m = true -> 0 < d -> forall e, d <= e < d + Z.of_nat n -> ~ (e | m).
  Proof.
    revert d. induction n as [|n IH]; intros d H Hd e He D; [lia|]. cbn [nodiv] in H.
    destruct (Z.eqb_spec (m mod d) 0) as [|N]; [discriminate|]. cbn in H.
    destruct (Z.eq_dec e d) as [->|Ne]; [apply N, Z.mod_divide; [lia|exact D]|]. apply (IH _ H ltac:(lia) e ltac:(lia) D).
  Qed.
  Lemma prime_factor n : 1 < n -> exists p, prime p /\ (p | n).
  Proof.
    intros H. assert (H0 : 0 <= n) by lia. revert n H0 H. apply (Z_lt_induction (fun n => 1 < n -> exists p, prime p /\ (p | n))).
    intros n IH H. destruct (prime_dec n) as [P|P]; [exists n; split; [exact P|reflexivity]|].
    destruct (not_prime_divide n H P) as (k & Hk & D). destruct (IH k ltac:(lia) ltac:(lia)) as (p & Pp & Dp).
    exists p. split; [exact Pp|]. transitivity k; assumption.
  Qed.
  Lemma small_factor m : 1 < m -> ~ prime m -> exists p, prime p /\ (p | m) /\ p * p <= m.
  Proof.
    intros Hm P. destruct (not_prime_divide m Hm P) as (k & Hk & j & D).
    assert (1 < j) by nia. assert (X : exists i, 1 < i /\ (i | m) /\ i * i <= m).
    { destruct (Z.le_gt_cases k j); [exists k|exists j]; (split; [lia|split; [|nia]]); [exists j; lia|exists k; lia]. }
    destruct X as (i & Hi & Di & Si). destruct (prime_factor i Hi) as (p & Pp & Dp). exists p. split; [exact Pp|]. split; [transitivity i; assumption|].
    pose proof (Z.divide_pos_le p i ltac:(lia) Dp). pose proof (prime_ge_2 p Pp). nia.
  Qed.
  Lemma prime_trial m n : 1 < m -> m < (Z.of_nat n + 2) * (Z.of_nat n + 2) -> nodiv n 2 m = true -> prime m.
  Proof.
    intros Hm Hn H. destruct (prime_dec m) as [|P]; [assumption|]. exfalso.
    destruct (small_factor m Hm P) as (p & Pp & D & S). pose proof (prime_ge_2 p Pp).
    apply (nodiv_spec _ _ _ H ltac:(lia) p); [nia|exact D].
  Qed.

  (** Modular powers. *)
  Fixpoint powm (m b : Z) (e : positive) : Z :=
    match e with
    | xH => b mod m
    | xO e => let a := powm m b e in (a * a) mod m
    | xI e => let a := powm m b e in (b * ((a * a) mod m)) mod m
    end.
  Lemma powm_spec m b e : 0 < m -> powm m b e = (b ^ Zpos e) mod m.
  Proof.
    intros Hm. induction e as [e IH|e IH|]; cbn [powm].
    - rewrite IH, Pos2Z.inj_xI, Z.pow_add_r, Z.pow_mul_r, Z.pow_1_r by lia. rewrite Zmult_mod_idemp_r.
      replace (b ^ 2) with (b * b) by ring. rewrite Z.pow_mul_l. rewrite (Z.mul_comm _ b). rewrite <- (Zmult_mod_idemp_r (_ * _)), <- Zmult_mod, Zmult_mod_idemp_r. reflexivity.
    - rewrite IH, Pos2Z.inj_xO, Z.pow_mul_r by lia. replace (b ^ 2) with (b * b) by ring. rewrite Z.pow_mul_l, <- Zmult_mod. reflexivity.
    - rewrite Z.pow_1_r. reflexivity.
  Qed.

  Definition big : Z := 67280421310721.
  Lemma prime_2998279 : prime 2998279.
  Proof. apply (prime_trial _ 1731); [lia|vm_compute; reflexivity|vm_compute; reflexivity]. Qed.
  Lemma big_prime : prime big.
  Proof.
    destruct (prime_dec big) as [|P]; [assumption|]. exfalso.
    destruct (small_factor big eq_refl P) as (p & Pp & D & S). pose proof (prime_ge_2 p Pp) as H2.
    assert (Q : (2998279 | p - 1)).
    { apply (factor_1_mod big 2998279 61150258807256 p prime_2998279 Pp D eq_refl).
      - rewrite <- (powm_spec big _ 2998279) by reflexivity. vm_compute. reflexivity.
      - apply bezout_rel_prime. apply (Bezout_intro _ _ _ 47000331560307 (-42717961376404)). reflexivity. }
    assert (O : (2 | p - 1)).
    { destruct (Z.Even_or_Odd p) as [[k E]|[k E]]; [|exists k; lia]. exfalso. destruct D as [j D]. assert (big mod 2 = 0).
      { rewrite D, E. replace (j * (2 * k)) with (j * k * 2) by ring. apply Z.mod_mul. lia. } discriminate. }
    destruct Q as [j Q], O as [k O]. assert (p < 8202465) by (unfold big in S; nia). assert (j = 2) by lia. assert (p = 5996559) by lia. subst p.
    apply Z.mod_divide in D; [|lia]. discriminate.
  Qed.
End fermat.

(** ** The linear map *)
Definition zz : N * N := (0, 0).
Definition xor2 (a b : N * N) : N * N := (N.lxor (fst a) (fst b), N.lxor (snd a) (snd b)).
Definition step (s : N * N) : N * N := fst (xs128_next s).
Lemma xor2_A a b c : xor2 a (xor2 b c) = xor2 (xor2 a b) c.
Proof. unfold xor2. cbn. rewrite !N.lxor_assoc. reflexivity. Qed.
Lemma xor2_C a b : xor2 a b = xor2 b a.
Proof. unfold xor2. rewrite (N.lxor_comm (fst a)), (N.lxor_comm (snd a)). reflexivity. Qed.
Lemma xor2_z a : xor2 zz a = a.
Proof. destruct a. reflexivity. Qed.
Lemma xor2_x a : xor2 a a = zz.
Proof. unfold xor2. rewrite !N.lxor_nilpotent. reflexivity. Qed.
Lemma shl64_lxor x y k : shl64 (N.lxor x y) k = N.lxor (shl64 x k) (shl64 y k).
Proof. unfold shl64. apply lxor_shl_gen. Qed.
Lemma shr64_lxor x y k : shr64 (N.lxor x y) k = N.lxor (shr64 x k) (shr64 y k).
Proof. apply N.shiftr_lxor. Qed.
Lemma step_xor a b : step (xor2 a b) = xor2 (step a) (step b).
Proof.
  destruct a as [a1 a2], b as [b1 b2]. unfold step, xs128_next, xor2. cbn [fst snd]. f_equal.
  rewrite shl64_lxor, (lxor_swap4 a1 b1).
  set (p := N.lxor a1 (shl64 a1 23)). set (q := N.lxor b1 (shl64 b1 23)).
  clearbody p q. rewrite !shr64_lxor, (lxor_swap4 p q a2 b2). rewrite (lxor_swap4 (N.lxor p a2)). apply lxor_swap4.
Qed.
Local Notation EV := (ev zz xor2 step).

(** An additive function that vanishes on the powers of two vanishes. *)
Lemma double_lxor a b : N.double (N.lxor a b) = N.lxor (N.double a) (N.double b).
Proof. destruct a as [|a], b as [|b]; reflexivity. Qed.
Lemma additive_zero (n : nat) (G : N -> N * N) : (forall a b, G (N.lxor a b) = xor2 (G a) (G b)) ->
  (forall i, (i < n)%nat -> G (2 ^ N.of_nat i) = zz) -> forall a, a < 2 ^ N.of_nat n -> G a = zz.
Proof.
  revert G. induction n as [|n IH]; intros G HG Hb a Ha.
  - assert (a = 0) as -> by (cbn in Ha; lia). rewrite <- (N.lxor_nilpotent 0), HG. apply xor2_x.
  - assert (D : forall b, b < 2 ^ N.of_nat n -> G (N.double b) = zz).
    { apply (IH (fun b => G (N.double b))).
      - intros b c. rewrite double_lxor. apply HG.
      - intros i Hi. rewrite <- (Hb (S i)) by lia. f_equal. rewrite Nat2N.inj_succ, N.pow_succ_r'. apply N.double_spec. }
    assert (H1 : G 1 = zz) by (apply (Hb 0%nat); lia).
    rewrite Nat2N.inj_succ, N.pow_succ_r' in Ha.
    destruct (N.Even_or_Odd a) as [[b ->]|[b ->]].
    + rewrite <- N.double_spec. apply D. lia.
    + replace (2 * b + 1) with (N.lxor (N.double b) 1) by (destruct b; reflexivity || (cbn; lia)).
      rewrite HG, H1, D by lia. apply xor2_x.
Qed.

(** ** The characteristic polynomial *)
Definition charpoly : N := 0x101f9f801f6fd0098bd82fd40e01730f9.
Definition eqz (a : N * N) : bool := N.eqb (fst a) 0 && N.eqb (snd a) 0.
Lemma eqz_true a : eqz a = true -> a = zz.
Proof. destruct a as [a b]. unfold eqz. cbn. rewrite andb_true_iff, !N.eqb_eq. intros [-> ->]. reflexivity. Qed.
(** the step with the wrap-around of << done by masking, to compute with *)
Definition mstep (s : N * N) : N * N :=
  let x := N.lxor (fst s) (N.land (N.shiftl (fst s) 23) 0xffffffffffffffff) in
  (snd s, N.lxor (N.lxor (N.lxor x (snd s)) (N.shiftr x 17)) (N.shiftr (snd s) 26)).
Lemma mstep_eq s : mstep s = step s.
Proof.
  unfold mstep, step, xs128_next. cbn [fst snd]. assert (E : forall y, N.land y 0xffffffffffffffff = y mod two64).
  { intros y. change 0xffffffffffffffff with (N.ones 64). apply N.land_ones. }
  rewrite E. reflexivity.
Qed.
Lemma evp_mstep p s : evp xor2 mstep p s = evp xor2 step p s.
Proof. revert s. induction p as [p IH|p IH|]; intros s; cbn [evp]; rewrite ?mstep_eq, ?IH; reflexivity. Qed.
Lemma basis_high : forallb (fun i => eqz (ev zz xor2 mstep charpoly (0, 2 ^ N.of_nat i))) (seq 0 64) = true.
Proof. vm_compute. reflexivity. Qed.
Lemma EV_xor p a b : EV p (xor2 a b) = xor2 (EV p a) (EV p b).
Proof. apply ev_x; [exact xor2_A|exact xor2_C|exact xor2_z|exact step_xor]. Qed.
Lemma kills_high b : b < 2 ^ 64 -> EV charpoly (0, b) = zz.
Proof.
  intros Hb. pose proof basis_high as H. rewrite forallb_forall in H.
  apply (additive_zero 64 (fun b => EV charpoly (0, b))); [| |exact Hb].
  - intros x y. rewrite <- EV_xor. f_equal.
  - intros i Hi. apply eqz_true. rewrite <- (H i); [|apply in_seq; lia]. unfold ev, charpoly. rewrite evp_mstep. reflexivity.
Qed.
(** (a, 0) is the step of (0, a) plus a state of the form (0, b). *)
Lemma cayley s : valid128 s -> kills zz xor2 step charpoly s.
Proof.
  destruct s as [a b]. intros [Ha Hb]. cbn [fst snd] in Ha, Hb. unfold kills.
  set (c := N.lxor b (snd (step (0, a)))).
  assert (E : (a, b) = xor2 (step (0, a)) (0, c)).
  { unfold xor2, c. cbn [fst snd]. f_equal; [unfold step; cbn; symmetry; apply N.lxor_0_r|].
    rewrite (N.lxor_comm b), <- N.lxor_assoc, N.lxor_nilpotent. symmetry. apply N.lxor_0_l. }
  assert (Hc : c < 2 ^ 64).
  { apply lxor_lt64; [exact Hb|]. apply (xs128_ok (0, a)). split; [reflexivity|exact Ha]. }
  rewrite E, EV_xor, (kills_high c Hc), (ev_T zz xor2 step xor2_x step_xor), (kills_high a Ha). reflexivity.
Qed.

(** ** The order *)
Definition factors : list Z := [3; 5; 17; 257; 641; 65537; 274177; 6700417; big]%Z.
Lemma factors_prime : Forall prime factors.
Proof.
  repeat apply Forall_cons_2; [..|apply Forall_nil_2]; try exact big_prime.
  - apply (prime_trial _ 1); [lia|lia|vm_compute; reflexivity].
  - apply (prime_trial _ 1); [lia|lia|vm_compute; reflexivity].
  - apply (prime_trial _ 4); [lia|lia|vm_compute; reflexivity].
  - apply (prime_trial _ 16); [lia|lia|vm_compute; reflexivity].
  - apply (prime_trial _ 25); [lia|lia|vm_compute; reflexivity].
  - apply (prime_trial _ 256); [lia|lia|vm_compute; reflexivity].
  - apply (prime_trial _ 523); [lia|lia|vm_compute; reflexivity].
  - apply (prime_trial _ 2588); [lia|lia|vm_compute; reflexivity].
Qed.
Lemma factors_product : zprod factors = Z.of_N full.
Proof. vm_compute. reflexivity. Qed.
Lemma prime_in_product r l : prime r -> Forall prime l -> (r | zprod l)%Z -> r ∈ l.
Proof.
  intros Hr. induction 1 as [|q l Hq _ IH]; cbn; intros D.
  - exfalso. apply Z.divide_1_r_nonneg in D; [|apply prime_ge_2 in Hr; lia]. apply prime_ge_2 in Hr. lia.
  - apply prime_mult in D; [|exact Hr]. destruct D as [D|D]; [|right; auto]. rewrite (prime_div_prime r q Hr Hq D). left.
Qed.

Definition inverses : list (Z * N) :=
  [(3, 0xb5a6337f9e59aca6dba165cdfbf0af93%N); (5, 0x626439318adf48efa15870a3b5bec277%N); (17, 0x634d665e79fa31324ab9f5a0342442c2%N);
   (257, 0xbc66ad751f007eff03b782c3069824d2%N); (641, 0x734790767bfd3bfa62ba20b019f62874%N); (65537, 0x1ca24f6ee64b11a3917e51c8243c6d5c%N);
   (274177, 0xc6c3e92290e941ecaa88cd3a16d69133%N); (6700417, 0xae6d3eab5b6c369d58c890e682f77499%N); (big, 0xbfc454fdbe0d9b18631fa9d97667c6f2%N)]%Z.
Local Notation MUL := (mul 128 charpoly).
Local Notation POW := (powp 128 charpoly).
Lemma pow_full : POW (Z.to_pos (Z.of_N full)) 2 = 1.
Proof. vm_compute. reflexivity. Qed.
Lemma pow_parts : forallb (fun qu => N.eqb (MUL (snd qu) (N.lxor (POW (Z.to_pos (Z.of_N full / fst qu)) 2) 1)) 1) inverses = true.
Proof. vm_compute. reflexivity. Qed.

Lemma iterN_add (f : N * N -> N * N) a b s : N.iter (a + b) f s = N.iter a f (N.iter b f s).
Proof. apply N.iter_add. Qed.
Lemma iter_fixed (f : N * N -> N * N) k d s : N.iter d f s = s -> N.iter (k * d) f s = s.
Proof.
  intros H. induction k as [|k IH] using N.peano_ind; [reflexivity|]. rewrite N.mul_succ_l, iterN_add, H. exact IH.
Qed.
Lemma returns_full s : valid128 s -> state_after s full = s.
Proof.
  intros H. apply cayley in H. unfold state_after.
  assert (E : full = Npos (Z.to_pos (Z.of_N full))) by (vm_compute; reflexivity). rewrite E. cbn [N.iter].
  change (fun s0 => fst (xs128_next s0)) with step.
  rewrite <- (ev_pow zz xor2 step xor2_A xor2_C xor2_z xor2_x step_xor 128 charpoly _ _ H), pow_full. reflexivity.
Qed.
Lemma returns_part s q u : (q, u) ∈ inverses -> valid128 s -> state_after s (Z.to_N (Z.of_N full / q)) = s -> s = zz.
Proof.
  intros Hq H E. apply cayley in H. pose proof pow_parts as P. rewrite forallb_forall in P. apply elem_of_list_In in Hq. specialize (P _ Hq). cbn [fst snd] in P.
  apply N.eqb_eq in P. apply (no_return zz xor2 step xor2_A xor2_C xor2_z xor2_x step_xor 128 charpoly _ _ _ H P).
  assert (K : (0 < Z.of_N full / q)%Z).
  { clear -Hq. assert (Q : forallb (fun qu => (0 <? Z.of_N full / fst qu)%Z) inverses = true) by (vm_compute; reflexivity).
    rewrite forallb_forall in Q. specialize (Q _ Hq). apply Z.ltb_lt in Q. exact Q. }
  unfold state_after in E. clear P. revert E K. generalize (Z.of_N full / q)%Z. intros [|k|k] E K; [lia| |lia]. exact E.
Qed.
Lemma returns_mult s k n : state_after s n = s -> state_after s (k * n) = s.
Proof. apply iter_fixed. Qed.
Lemma full_pos : 0 < full. Proof. vm_compute. reflexivity. Qed.
Lemma returns_gcd s d : valid128 s -> state_after s d = s -> state_after s (N.gcd d full) = s.
Proof.
  intros Hv H. pose proof (returns_full s Hv) as F. pose proof full_pos as Hf. revert F Hf. generalize full as n. intros n F Hn. unfold state_after in *. set (f := fun s => fst (xs128_next s)) in *.
  destruct (N.eq_dec d 0) as [->|Nd]; [rewrite N.gcd_0_l; exact F|].
  destruct (N.gcd_bezout_pos d n) as (a & b & E); [lia|].
  pose proof (iter_fixed f a d s H) as A. rewrite E, iterN_add, (iter_fixed f b n s F) in A. exact A.
Qed.
Lemma period_divides s d : live s -> state_after s d = s -> N.divide full d.
Proof.
  intros [Hv Hs] H. apply (returns_gcd s d Hv) in H. destruct (N.gcd_divide_r d full) as [c Hc]. pose proof (N.gcd_divide_l d full) as Hl. revert H Hc Hl. generalize (N.gcd d full) as g. intros g H Hc Hl.
  destruct (N.eq_dec c 1) as [->|Nc]; [rewrite N.mul_1_l in Hc; rewrite Hc; exact Hl|]. exfalso. apply Hs.
  pose proof full_pos as Hf. assert (1 < c) by nia.
  destruct (prime_factor (Z.of_N c) ltac:(lia)) as (r & Pr & e & De). pose proof (prime_ge_2 r Pr) as R2.
  assert (Er : (Z.of_N full = e * r * Z.of_N g)%Z) by (rewrite Hc, N2Z.inj_mul, De; reflexivity).
  assert (In : r ∈ factors).
  { apply prime_in_product; [exact Pr|exact factors_prime|]. rewrite factors_product, Er. exists (e * Z.of_N g)%Z. ring. }
  assert (U : exists u, (r, u) ∈ inverses).
  { assert (M : map fst inverses = factors) by (vm_compute; reflexivity). rewrite <- M in In. apply elem_of_list_fmap in In as ([r' u] & -> & In). exists u. exact In. }
  destruct U as [u U]. apply (returns_part s r u U Hv).
  assert (Q : (Z.of_N full / r = e * Z.of_N g)%Z) by (rewrite Er; replace (e * r * Z.of_N g)%Z with (e * Z.of_N g * r)%Z by ring; apply Z.div_mul; lia).
  rewrite Q. assert (0 <= e)%Z by nia. rewrite Z2N.inj_mul, N2Z.id by lia. apply iter_fixed, H.
Qed.
Lemma period s d : live s -> (state_after s d = s <-> N.divide full d).
Proof.
  intros H. split; [apply period_divides, H|]. intros [k ->]. apply returns_mult, returns_full, H.
Qed.

(** ** All states, all results *)
Lemma after_valid s n : valid128 s -> valid128 (state_after s n).
Proof.
  intros H. unfold state_after. induction n as [|n IH] using N.peano_ind; [exact H|]. rewrite N.iter_succ. apply (xs128_ok _ IH).
Qed.
Lemma after_add s a b : state_after s (a + b) = state_after (state_after s b) a.
Proof. apply iterN_add. Qed.
Lemma after_inj n s t : valid128 s -> valid128 t -> state_after s n = state_after t n -> s = t.
Proof.
  revert s t. induction n as [|n IH] using N.peano_ind; intros s t Hs Ht E; [exact E|].
  rewrite <- N.add_1_r, !after_add in E. apply IH in E; [|apply (xs128_ok _ Hs)|apply (xs128_ok _ Ht)].
  apply xs128_inj; assumption.
Qed.
Lemma after_zero n : state_after (0, 0) n = (0, 0).
Proof. unfold state_after. induction n as [|n IH] using N.peano_ind; [reflexivity|]. rewrite N.iter_succ, IH. reflexivity. Qed.
Lemma after_live s n : live s -> live (state_after s n).
Proof.
  intros [Hv Hs]. split; [apply after_valid, Hv|]. intros E. apply Hs. apply (after_inj n); [exact Hv|split; reflexivity|].
  rewrite E. symmetry. apply after_zero.
Qed.
Lemma after_distinct s i j : live s -> i < full -> j < full -> state_after s i = state_after s j -> i = j.
Proof.
  intros Hs Hi Hj E.
  assert (W : forall i j, j < full -> i <= j -> state_after s i = state_after s j -> i = j).
  { clear -Hs. intros i j Hj L E.
    assert (E' : state_after (state_after s i) (j - i) = state_after s i) by (rewrite <- after_add; replace (j - i + i) with j by lia; symmetry; exact E).
    apply period in E'; [|apply after_live, Hs]. destruct E' as [k E']. assert (k = 0) by nia. nia. }
  destruct (N.le_gt_cases i j); [apply W; assumption|symmetry; apply W; [assumption|lia|congruence]].
Qed.
Definition code (s : N * N) : N := fst s * 2 ^ 64 + snd s.
Lemma code_inj s t : valid128 s -> valid128 t -> code s = code t -> s = t.
Proof.
  destruct s as [a b], t as [c d]. unfold valid128, code. cbn [fst snd]. generalize (2 ^ 64). intros m [_ Hb] [_ Hd] E.
  assert (a = c) as <- by (apply (N.div_unique (c * m + d) m a b) in Hb as X; [|lia]; apply (N.div_unique (c * m + d) m c d) in Hd as Y; [|lia]; congruence).
  f_equal. lia.
Qed.
Lemma code_live s : live s -> 0 < code s /\ code s <= full.
Proof.
  destruct s as [a b]. unfold live, valid128, code. cbn [fst snd]. intros [[Ha Hb] Hs]. split.
  - destruct (N.eq_dec a 0) as [->|]; [destruct (N.eq_dec b 0) as [->|]; [congruence|lia]|nia].
  - assert (full = 2 ^ 64 * 2 ^ 64 - 1) as -> by (vm_compute; reflexivity). revert Ha Hb. generalize (2 ^ 64). intros m Ha Hb. nia.
Qed.
Lemma all_states s t : live s -> live t -> exists n, n < full /\ state_after s n = t /\ forall m, m < full -> state_after s m = t -> m = n.
Proof.
  intros Hs Ht. destruct (pigeon full (fun n => code (state_after s n) - 1)) with (y := code t - 1) as (n & Hn & E).
  - intros n _. pose proof (code_live _ (after_live s n Hs)). lia.
  - intros i j Hi Hj E. apply (after_distinct s); try assumption. apply code_inj; [apply after_live, Hs|apply after_live, Hs|].
    pose proof (code_live _ (after_live s i Hs)). pose proof (code_live _ (after_live s j Hs)). lia.
  - pose proof (code_live _ Ht). lia.
  - assert (En : state_after s n = t).
    { apply code_inj; [apply after_live, Hs|apply Ht|]. pose proof (code_live _ Ht). pose proof (code_live _ (after_live s n Hs)). lia. }
    exists n. split_and!; [exact Hn|exact En|]. intros m Hm Em. apply (after_distinct s); try assumption. congruence.
Qed.

(** The lowest bit of a result is linear in the state. *)
Definition lowbit (s : N * N) : bool := N.testbit (snd (xs128_next s)) 0.
Lemma lowbit_step s : lowbit s = xorb (N.testbit (snd (step s)) 0) (N.testbit (fst (step s)) 0).
Proof.
  unfold lowbit, step, xs128_next. cbn [fst snd]. unfold add64, two64. rewrite N.mod_pow2_bits_low by reflexivity. rewrite N.add_bit0. reflexivity.
Qed.
Lemma lowbit_xor a b : lowbit (xor2 a b) = xorb (lowbit a) (lowbit b).
Proof.
  rewrite !lowbit_step, step_xor. unfold xor2. cbn [fst snd]. rewrite !N.lxor_spec.
  destruct (N.testbit (snd (step a)) 0), (N.testbit (snd (step b)) 0), (N.testbit (fst (step a)) 0), (N.testbit (fst (step b)) 0); reflexivity.
Qed.
Lemma after_xor n a b : state_after (xor2 a b) n = xor2 (state_after a n) (state_after b n).
Proof.
  unfold state_after. induction n as [|n IH] using N.peano_ind; [reflexivity|]. rewrite !N.iter_succ, IH. apply step_xor.
Qed.
Lemma xor2_valid a b : valid128 a -> valid128 b -> valid128 (xor2 a b).
Proof. intros [A1 A2] [B1 B2]. split; cbn [fst snd xor2]; apply lxor_lt64; assumption. Qed.
Lemma draws_period s d : live s -> ((forall n, draw s (n + d) = draw s n) <-> N.divide full d).
Proof.
  intros Hs. split.
  - intros H. apply (period s d Hs). set (t := state_after s d). assert (Ht : valid128 t) by (apply after_live, Hs).
    destruct (decide (xor2 t s = (0, 0))) as [E|N].
    { assert (X : xor2 s (xor2 t s) = s) by (rewrite E, xor2_C; apply xor2_z).
      rewrite (xor2_C t s), xor2_A, xor2_x, xor2_z in X. exact X. }
    exfalso. destruct (all_states (xor2 t s) (1, 0)) as (n & _ & En & _).
    + split; [apply xor2_valid; [exact Ht|apply Hs]|exact N].
    + split; [split; reflexivity|discriminate].
    + assert (L : lowbit (state_after (xor2 t s) n) = true) by (rewrite En; vm_compute; reflexivity).
      rewrite after_xor, lowbit_xor in L. unfold t in L. rewrite <- after_add in L. unfold lowbit in L. unfold draw in H. rewrite H, xorb_nilpotent in L. discriminate.
  - intros H n. unfold draw. rewrite after_add. apply (period s d Hs) in H. rewrite H. reflexivity.
Qed.

(** Every result with every word before it. *)
Lemma after_1 s : state_after s 1 = fst (xs128_next s).
Proof. reflexivity. Qed.
Lemma result_of_state s : snd (xs128_next s) = add64 (snd (fst (xs128_next s))) (fst (fst (xs128_next s))).
Proof. reflexivity. Qed.
Lemma draws_even s v a : live s -> v < 2 ^ 64 -> a < 2 ^ 64 -> (v <> 0 \/ a <> 0) ->
  exists n, n < full /\ draw s n = v /\ fst (state_after s (n + 1)) = a /\
    forall m, m < full -> draw s m = v -> fst (state_after s (m + 1)) = a -> m = n.
Proof.
  intros Hs Hv Ha Hva. set (b := (v + (2 ^ 64 - a)) mod 2 ^ 64).
  assert (Hb : b < 2 ^ 64) by (apply N.mod_lt; discriminate).
  assert (Sum : forall c, c < 2 ^ 64 -> (add64 c a = v <-> c = b)).
  { intros c Hc. unfold b, add64, two64. revert Hv Ha Hc. generalize (2 ^ 64). intros m Hv Ha Hc. split.
    - intros <-. destruct (N.lt_ge_cases (c + a) m) as [L|L].
      + rewrite (N.mod_small (c + a)) by exact L. replace (c + a + (m - a)) with (c + 1 * m) by lia. rewrite N.mod_add, N.mod_small by lia. reflexivity.
      + replace ((c + a) mod m) with (c + a - m) by (apply (N.mod_unique _ _ 1); lia). replace (c + a - m + (m - a)) with c by lia. rewrite N.mod_small by lia. reflexivity.
    - intros ->. rewrite N.add_mod_idemp_l by lia. replace (v + (m - a) + a) with (v + 1 * m) by lia. rewrite N.mod_add, N.mod_small by lia. reflexivity. }
  assert (Ht : live (a, b)).
  { split; [split; assumption|]. intros E. apply pair_equal_spec in E as [E1 E2]. destruct Hva as [Hva|]; [|congruence]. apply Hva.
    assert (X : add64 b a = v) by (apply Sum; [exact Hb|reflexivity]). rewrite <- X, E1, E2. reflexivity. }
  assert (D : forall n, draw s n = v /\ fst (state_after s (n + 1)) = a <-> state_after (state_after s 1) n = (a, b)).
  { intros n. unfold draw. rewrite result_of_state. rewrite <- after_1, <- !after_add. rewrite (N.add_comm 1 n).
    pose proof (after_valid s (n + 1) (proj1 Hs)) as [_ V2]. destruct (state_after s (n + 1)) as [p q]. cbn [fst snd] in *. split.
    - intros [E ->]. apply Sum in E; [|exact V2]. congruence.
    - intros E. apply pair_equal_spec in E as [-> ->]. split; [|reflexivity]. apply Sum; [exact Hb|reflexivity]. }
  destruct (all_states (state_after s 1) (a, b) (after_live s 1 Hs) Ht) as (n & Hn & En & Un).
  exists n. apply D in En as [E1 E2]. split_and!; [exact Hn|exact E1|exact E2|]. intros m Hm M1 M2. apply Un; [exact Hm|]. apply D. split; assumption.
Qed.
Lemma seed_live seed : valid64 seed -> seed <> 0 -> live (xs128_seed seed).
Proof.
  intros Hv Hs. split.
  - unfold xs128_seed. split; cbn [fst snd]; repeat apply xs64_lt; assumption.
  - apply (xs128_never_zero' seed 0); assumption.
Qed.
