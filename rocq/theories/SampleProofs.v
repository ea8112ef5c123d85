(** Counting draws. *)
From Verif Require Import Base BaseProofs DistModel DistSpec DistProofs SampleSpec.
Local Open Scope Z_scope.

(** ** Sums *)
Lemma sum_ext f g n : (forall x, 0 <= x < Z.of_nat n -> f x = g x) -> sum_below f n = sum_below g n.
Proof. intros H. induction n as [|n IH]; [reflexivity|]. cbn [sum_below]. rewrite IH by (intros x Hx; apply H; lia). rewrite H by lia. reflexivity. Qed.
Lemma sum_le f g n : (forall x, 0 <= x < Z.of_nat n -> f x <= g x) -> sum_below f n <= sum_below g n.
Proof. intros H. induction n as [|n IH]; [reflexivity|]. cbn [sum_below]. specialize (IH ltac:(intros x Hx; apply H; lia)). pose proof (H (Z.of_nat n) ltac:(lia)). lia. Qed.
Lemma sum_if (P : Z -> bool) (a b : Z) n : sum_below (fun x => if P x then a else b) n = count_below P n * a + (Z.of_nat n - count_below P n) * b.
Proof. induction n as [|n IH]; [cbn; lia|]. cbn [sum_below count_below]. rewrite IH. destruct (P (Z.of_nat n)); nia. Qed.
Lemma sum_const c n : sum_below (fun _ => c) n = Z.of_nat n * c.
Proof. induction n as [|n IH]; [reflexivity|]. cbn [sum_below]. rewrite IH. lia. Qed.
Lemma count_ext P Q n : (forall x, 0 <= x < Z.of_nat n -> P x = Q x) -> count_below P n = count_below Q n.
Proof. intros H. induction n as [|n IH]; [reflexivity|]. cbn [count_below]. rewrite IH by (intros x Hx; apply H; lia). rewrite H by lia. reflexivity. Qed.
Lemma count_range P n : 0 <= count_below P n <= Z.of_nat n.
Proof. induction n as [|n IH]; [cbn; lia|]. cbn [count_below]. destruct (P (Z.of_nat n)); lia. Qed.
Lemma count_diff P Q n : (forall x, 0 <= x < Z.of_nat n -> Q x = true -> P x = true) -> count_below (fun x => P x && negb (Q x)) n = count_below P n - count_below Q n.
Proof.
  intros H. induction n as [|n IH]; [reflexivity|]. cbn [count_below]. rewrite IH by (intros x Hx; apply H; lia). specialize (H (Z.of_nat n) ltac:(lia)).
  destruct (Q (Z.of_nat n)); [rewrite H by reflexivity|destruct (P (Z.of_nat n))]; cbn; lia.
Qed.
Lemma product_app a b : product (a ++ b) = product a * product b.
Proof. unfold product. induction a as [|x a IH]; [cbn; lia|]. cbn [app fold_right]. rewrite IH. lia. Qed.
Lemma product_pos l : Forall (fun x => 0 <= x) l -> 0 <= product l.
Proof. induction 1 as [|x l Hx Hl IH]; [cbn; lia|]. cbn. fold (product l). nia. Qed.

(** Of T numbers, those with a given remainder. *)


Lemma hits_exact s w n : 0 <= s < w -> count_below (fun x => x mod w =? s) n = Z.of_nat n / w + (if s <? Z.of_nat n mod w then 1 else 0).
Proof.
  intros H. assert (E : count_below (fun x => x mod w =? s) n = count_below (fun x => x mod w <? s + 1) n - count_below (fun x => x mod w <? s) n).
  { rewrite <- (count_diff (fun x => x mod w <? s + 1) (fun x => x mod w <? s)).
    - apply count_ext. intros x _. destruct (Z.eqb_spec (x mod w) s), (Z.ltb_spec (x mod w) (s + 1)), (Z.ltb_spec (x mod w) s); cbn; lia.
    - intros x _ Hx. apply Z.ltb_lt in Hx. apply Z.ltb_lt. lia. }
  rewrite E, !count_below_mod by lia. pose proof (Z.mod_pos_bound (Z.of_nat n) w ltac:(lia)). destruct (Z.ltb_spec s (Z.of_nat n mod w)); nia.
Qed.
Lemma hi_cases T w : 0 < w -> (T mod w = 0 /\ quot_hi T w = T / w) \/ (0 < T mod w /\ quot_hi T w = T / w + 1).
Proof.
  intros H. unfold quot_hi. pose proof (Z.mod_pos_bound T w H). pose proof (Z.div_mod T w ltac:(lia)) as D.
  destruct (Z.eq_dec (T mod w) 0) as [E|E]; [left|right]; (split; [lia|]).
  - symmetry. apply (Z.div_unique _ _ _ (w - 1)); lia.
  - symmetry. apply (Z.div_unique _ _ _ (T mod w - 1)); lia.
Qed.
Lemma hits_bounds s w n : 0 <= s < w -> quot_lo (Z.of_nat n) w <= count_below (fun x => x mod w =? s) n <= quot_hi (Z.of_nat n) w.
Proof.
  intros H. rewrite hits_exact by exact H. unfold quot_lo. destruct (hi_cases (Z.of_nat n) w ltac:(lia)) as [[E ->]|[E ->]].
  - rewrite E. destruct (Z.ltb_spec s 0); lia.
  - destruct (s <? Z.of_nat n mod w); lia.
Qed.
Lemma enter_bounds w n : 64 <= w -> 64 * quot_lo (Z.of_nat n) w <= count_below (fun x => x mod w <? 64) n <= 64 * quot_hi (Z.of_nat n) w.
Proof.
  intros H. rewrite count_below_mod by lia. unfold quot_lo. pose proof (Z.mod_pos_bound (Z.of_nat n) w ltac:(lia)). destruct (hi_cases (Z.of_nat n) w ltac:(lia)) as [[E ->]|[E ->]]; lia.
Qed.

(** ** Reservoirs of positions *)
Definition uniq (res : list (option Z)) : Prop := forall a b k, res !! a = Some (Some k) -> res !! b = Some (Some k) -> a = b.
Lemma uniq_perm l1 l2 : l1 ≡ₚ l2 -> uniq l2 -> uniq l1.
Proof.
  intros H U a b k Ha Hb. apply Permutation_inj in H as [_ (f & Hf & E)]. rewrite E in Ha, Hb. apply Hf. exact (U _ _ k Ha Hb).
Qed.
Lemma uniq_set (res : list (option Z)) (j : nat) t : uniq res -> Some t ∉ res -> uniq (<[j := Some t]> res).
Proof.
  intros U N a b k Ha Hb. apply list_lookup_insert_Some in Ha, Hb. destruct Ha as [(-> & Ea & _)|(Na & Ha)], Hb as [(-> & Eb & _)|(Nb & Hb)]; try reflexivity.
  - assert (k = t) by congruence. subst k. destruct N. apply elem_of_list_lookup. eauto.
  - assert (k = t) by congruence. subst k. destruct N. apply elem_of_list_lookup. eauto.
  - exact (U a b k Ha Hb).
Qed.
Lemma set_other (res : list (option Z)) (j : nat) t k s : uniq res -> k <> t -> res !! s = Some (Some k) -> Some k ∈ <[j := Some t]> res <-> j <> s.
Proof.
  intros U N Hs. rewrite elem_of_list_lookup. split.
  - intros (b & Hb) ->. apply list_lookup_insert_Some in Hb as [(_ & E & _)|(Nb & Hb)]; [congruence|]. exact (Nb (U s b k Hs Hb)).
  - intros Nj. exists s. rewrite list_lookup_insert_ne by exact Nj. exact Hs.
Qed.
Lemma set_absent (res : list (option Z)) (j : nat) t k : k <> t -> Some k ∉ res -> Some k ∉ <[j := Some t]> res.
Proof.
  intros N H. rewrite elem_of_list_lookup. intros (b & Hb). apply list_lookup_insert_Some in Hb as [(_ & E & _)|(_ & Hb)]; [congruence|]. apply H, elem_of_list_lookup. eauto.
Qed.
Lemma set_in (res : list (option Z)) (j : nat) t : (j < length res)%nat -> Some t ∈ <[j := Some t]> res.
Proof. intros H. apply elem_of_list_lookup. exists j. apply list_lookup_insert, H. Qed.

Section run.
  Context (less : option Z -> option Z -> bool) (W : Z) (tf : Z -> nat).
  Hypothesis HW : W <= 0 \/ 64 <= W.
  Definition tdist := dist Z (option Z) (list Z).
  Definition with_rng (d : tdist) (xs : list Z) : tdist := Dist (d_low d) (d_high d) (d_recent d) (d_count d) (d_sum d) (d_res d) xs (d_sorted d).
  Definition runs (d : tdist) (i : nat) (h : list use) (xs : list Z) : outcome tdist :=
    dist_run 0 Z.ltb Z.add Some less draw (with_rng d xs) (history (fun i => i) W (Z.of_nat i) h).
  Record good (i : nat) (d : tdist) : Prop := Good {
    g_count : d_count d = Z.of_nat i; g_length : length (d_res d) = 64%nat; g_uniq : uniq (d_res d);
    g_below : forall k, Some k ∈ d_res d -> 0 <= k < Z.of_nat i; g_unused : forall a, (i <= a)%nat -> (a < 64)%nat -> d_res d !! a = Some None }.
  Definition wl (a b : nat) : list Z := map (fun i => window W (Z.of_nat i)) (seq a (b - a)).
  Lemma wl_nil a b : (b <= a)%nat -> wl a b = [].
  Proof using. clear. intros H. unfold wl. replace (b - a)%nat with 0%nat by lia. reflexivity. Qed.
  Lemma wl_cons a b : (a < b)%nat -> wl a b = window W (Z.of_nat a) :: wl (S a) b.
  Proof using. clear. intros H. unfold wl. replace (b - a)%nat with (S (b - S a)) by lia. reflexivity. Qed.

  (** One insertion. *)
  Definition put (d : tdist) (v : Z) (res : list (option Z)) (srt : bool) : tdist :=
    Dist (if negb (d_count d =? 0) then (if v <? d_low d then v else d_low d) else v) (if negb (d_count d =? 0) then (if d_high d <? v then v else d_high d) else v) v
      (d_count d + 1) (d_sum d + v) res [] srt.
  Definition put_at (d : tdist) (v x : Z) : tdist :=
    let j := x mod window W (d_count d) in if j <? 64 then put d v (<[Z.to_nat j := Some v]> (d_res d)) false else put d v (d_res d) (d_sorted d).
  Lemma wrap_next i : (Z.of_nat i < 2 ^ 63 - 1) -> wrap64 (Z.of_nat i + 1) = Z.of_nat i + 1.
  Proof. intros H. apply wrap64_id. unfold in64. lia. Qed.
  Lemma insert_early i d xs v : good i d -> (i < 64)%nat -> dist_insert Z.ltb Z.add Some draw W (with_rng d xs) v = Ok (with_rng (put d v (<[i := Some v]> (d_res d)) false) xs).
  Proof.
    intros [Hc Hl _ _ _] Hi. unfold dist_insert. cbn [with_rng d_count d_res d_low d_high d_sum d_rng d_sorted]. rewrite Hc. destruct (Z.ltb_spec (Z.of_nat i) ReservoirSize) as [_|E]; [|unfold ReservoirSize in E; lia].
    unfold set_slot. rewrite Hl. destruct (Z.leb_spec 0 (Z.of_nat i)); [|lia]. destruct (Z.ltb_spec (Z.of_nat i) (Z.of_nat 64)); [|lia]. cbn [andb]. rewrite Nat2Z.id, wrap_next by lia.
    unfold put, with_rng. cbn [d_low d_high d_recent d_count d_sum d_res d_sorted]. rewrite Hc. reflexivity.
  Qed.
  Lemma window_range i : 64 <= i -> 64 <= window W i <= i + 1.
  Proof using HW. clear less tf. intros H. unfold window. destruct (decide (0 < W)); lia. Qed.
  Lemma insert_late i d x xs v : good i d -> (64 <= i)%nat -> Z.of_nat i < 2 ^ 63 - 1 ->
    dist_insert Z.ltb Z.add Some draw W (with_rng d (x :: xs)) v = Ok (with_rng (put_at d v x) xs).
  Proof.
    intros [Hc Hl _ _ _] Hi Hb. unfold dist_insert. cbn [with_rng d_count d_res d_low d_high d_sum d_rng d_sorted]. rewrite Hc, wrap_next by lia.
    destruct (Z.ltb_spec (Z.of_nat i) ReservoirSize) as [E|_]; [unfold ReservoirSize in E; lia|]. cbn [draw].
    assert (E : (if (0 <? W) && (W <? Z.of_nat i + 1) then W else Z.of_nat i + 1) = window W (Z.of_nat i)).
    { unfold window. destruct (Z.ltb_spec 0 W), (Z.ltb_spec W (Z.of_nat i + 1)); cbn [andb]; destruct (decide (0 < W)); lia. }
    rewrite E. pose proof (window_range (Z.of_nat i) ltac:(lia)) as R. assert (U : u64 (window W (Z.of_nat i)) = window W (Z.of_nat i)) by (unfold u64; apply Z.mod_small; lia).
    rewrite U. destruct (Z.eqb_spec (window W (Z.of_nat i)) 0); [lia|]. unfold put_at. rewrite Hc. unfold ReservoirSize.
    pose proof (Z.mod_pos_bound x (window W (Z.of_nat i)) ltac:(lia)). set (j := x mod window W (Z.of_nat i)) in *. clearbody j.
    destruct (Z.ltb_spec j 64).
    - unfold set_slot. rewrite Hl. destruct (Z.leb_spec 0 j); [|lia]. destruct (Z.ltb_spec j (Z.of_nat 64)); [|lia]. cbn [andb]. unfold put, with_rng. cbn [d_low d_high d_recent d_count d_sum d_res d_sorted]. rewrite Hc. reflexivity.
    - unfold put, with_rng. cbn [d_low d_high d_recent d_count d_sum d_res d_sorted]. rewrite Hc. reflexivity.
  Qed.
  Lemma fresh_absent i d : good i d -> Some (Z.of_nat i) ∉ d_res d.
  Proof. intros G F. apply (g_below i d G) in F. lia. Qed.
  Lemma good_set i d (j : nat) srt : good i d -> (j < 64)%nat -> ((i < 64)%nat -> j = i) -> good (S i) (put d (Z.of_nat i) (<[j := Some (Z.of_nat i)]> (d_res d)) srt).
  Proof.
    intros G Hj Hi. pose proof (fresh_absent i d G) as F. destruct G as [Hc Hl Hu Hb Hn]. split; cbn [put d_count d_res].
    - lia.
    - rewrite insert_length. exact Hl.
    - apply uniq_set; assumption.
    - intros k Hk. destruct (Z.eq_dec k (Z.of_nat i)) as [->|N]; [lia|]. assert (Some k ∈ d_res d); [|specialize (Hb k); lia].
      destruct (decide (Some k ∈ d_res d)) as [Y|Y]; [exact Y|]. destruct (set_absent (d_res d) j (Z.of_nat i) k N Y Hk).
    - intros a Ha Ha'. rewrite list_lookup_insert_ne by (destruct (decide (i < 64)%nat); [rewrite Hi by assumption; lia|lia]). apply Hn; lia.
  Qed.
  Lemma good_put i d x : good i d -> (64 <= i)%nat -> good (S i) (put_at d (Z.of_nat i) x).
  Proof.
    intros G Hi. unfold put_at. rewrite (g_count i d G). pose proof (window_range (Z.of_nat i) ltac:(lia)) as R. pose proof (Z.mod_pos_bound x (window W (Z.of_nat i)) ltac:(lia)).
    destruct (Z.ltb_spec (x mod window W (Z.of_nat i)) 64).
    - apply good_set; [exact G|lia|lia].
    - destruct G as [Hc Hl Hu Hb Hn]. split; cbn [put d_count d_res]; try assumption; [lia|intros k Hk; specialize (Hb k Hk); lia|intros a; lia].
  Qed.
  Lemma put_other i d x k s : good i d -> (64 <= i)%nat -> k < Z.of_nat i -> d_res d !! s = Some (Some k) ->
    (Some k ∈ d_res (put_at d (Z.of_nat i) x)) <-> x mod window W (Z.of_nat i) <> Z.of_nat s.
  Proof.
    intros G Hi Hk Hs. pose proof (lookup_lt_Some _ _ _ Hs) as L. rewrite (g_length i d G) in L. unfold put_at. rewrite (g_count i d G).
    pose proof (window_range (Z.of_nat i) ltac:(lia)) as R. pose proof (Z.mod_pos_bound x (window W (Z.of_nat i)) ltac:(lia)).
    destruct (Z.ltb_spec (x mod window W (Z.of_nat i)) 64); cbn [put d_res].
    - rewrite (set_other (d_res d) _ (Z.of_nat i) k s (g_uniq i d G)) by (try assumption; lia). lia.
    - split; [lia|]. intros _. apply elem_of_list_lookup. eauto.
  Qed.
  Lemma put_absent i d x k : good i d -> k < Z.of_nat i -> Some k ∉ d_res d -> Some k ∉ d_res (put_at d (Z.of_nat i) x).
  Proof. intros G Hk N. unfold put_at. destruct (_ <? 64); cbn [put d_res]; [apply set_absent; [lia|exact N]|exact N]. Qed.
  Lemma put_new i d x : good i d -> (64 <= i)%nat -> (Some (Z.of_nat i) ∈ d_res (put_at d (Z.of_nat i) x)) <-> x mod window W (Z.of_nat i) < 64.
  Proof.
    intros G Hi. unfold put_at. rewrite (g_count i d G). pose proof (window_range (Z.of_nat i) ltac:(lia)) as R. pose proof (Z.mod_pos_bound x (window W (Z.of_nat i)) ltac:(lia)).
    destruct (Z.ltb_spec (x mod window W (Z.of_nat i)) 64); cbn [put d_res].
    - split; [lia|]. intros _. apply set_in. rewrite (g_length i d G). lia.
    - split; [|lia]. intros F. destruct (fresh_absent i d G F).
  Qed.
  (** A query only moves values around. *)
  Lemma query_perm d xs : d_res (query_state less (with_rng d xs)) ≡ₚ d_res d /\ query_state less (with_rng d xs) = with_rng (query_state less d) xs.
  Proof.
    unfold query_state, rlen. cbn [with_rng d_count d_sorted d_res d_low d_high d_recent d_sum d_rng].
    destruct (_ <? 2); [split; reflexivity|]. destruct (d_sorted d); [split; reflexivity|]. split; [|reflexivity]. cbn [d_res]. rewrite isort_perm, take_drop. reflexivity.
  Qed.
  Lemma good_query i d : good i d -> good i (query_state less d) /\ (forall k, Some k ∈ d_res (query_state less d) <-> Some k ∈ d_res d).
  Proof.
    intros [Hc Hl Hu Hb Hn]. assert (P : d_res (query_state less d) ≡ₚ d_res d).
    { unfold query_state. destruct (_ <? 2); [reflexivity|]. destruct (d_sorted d); [reflexivity|]. cbn [d_res]. rewrite isort_perm, take_drop. reflexivity. }
    split; [|intros k; rewrite P; reflexivity]. split.
    - unfold query_state. destruct (_ <? 2); [exact Hc|]. destruct (d_sorted d); exact Hc.
    - rewrite P. exact Hl.
    - exact (uniq_perm _ _ P Hu).
    - intros k Hk. rewrite P in Hk. exact (Hb k Hk).
    - intros a Ha Ha'. unfold query_state. destruct (_ <? 2); [apply Hn; assumption|]. destruct (d_sorted d); [apply Hn; assumption|]. cbn [d_res].
      assert (R : Z.to_nat (rlen d) = i) by (unfold rlen, ReservoirSize; rewrite Hc; destruct (Z.ltb_spec (Z.of_nat i) 64); lia). rewrite R.
      rewrite lookup_app_r; rewrite isort_length, take_length_le by lia; [|lia]. rewrite lookup_drop. replace (i + (a - i))%nat with a by lia. apply Hn; assumption.
  Qed.

  (** ** Counting *)
  Definition counts (k : Z) (d : tdist) (i : nat) (h : list use) : Z := count_draws (map tf (wl (Nat.max i 64) (i + records h))) (fun xs => sampled k (runs d i h xs)).
  Lemma count_draws_ext Ts : forall P Q, (forall xs, P xs = Q xs) -> count_draws Ts P = count_draws Ts Q.
  Proof. induction Ts as [|T Ts IH]; intros P Q H; cbn [count_draws]; [rewrite H; reflexivity|]. apply sum_ext. intros x _. apply IH. intros xs. apply H. Qed.
  Lemma counts_query k d i h : counts k d i (UQuery :: h) = counts k (query_state less d) i h.
  Proof.
    unfold counts. cbn [records]. apply count_draws_ext. intros xs. unfold runs. cbn [history dist_run dist_step]. rewrite (proj2 (query_perm d xs)). reflexivity.
  Qed.
  Lemma counts_average k d i h : counts k d i (UAverage :: h) = counts k d i h.
  Proof. reflexivity. Qed.
  Lemma counts_early k d i h : good i d -> (i < 64)%nat -> counts k d i (URecord :: h) = counts k (put d (Z.of_nat i) (<[i := Some (Z.of_nat i)]> (d_res d)) false) (S i) h.
  Proof.
    intros G Hi. unfold counts. cbn [records]. replace (Nat.max (S i) 64) with (Nat.max i 64) by lia. replace (S i + records h)%nat with (i + S (records h))%nat by lia. apply count_draws_ext. intros xs.
    unfold runs. cbn [history dist_run dist_step]. rewrite (insert_early i d xs _ G Hi). replace (Z.of_nat (S i)) with (Z.of_nat i + 1) by lia. reflexivity.
  Qed.
  Lemma counts_late k d i h : good i d -> (64 <= i)%nat -> Z.of_nat i < 2 ^ 63 - 1 ->
    counts k d i (URecord :: h) = sum_below (fun x => counts k (put_at d (Z.of_nat i) x) (S i) h) (tf (window W (Z.of_nat i))).
  Proof.
    intros G Hi Hb. unfold counts. cbn [records]. replace (Nat.max i 64) with i by lia. replace (Nat.max (S i) 64) with (S i) by lia. rewrite wl_cons by lia. cbn [map count_draws].
    replace (S i + records h)%nat with (i + S (records h))%nat by lia. apply sum_ext. intros x _. apply count_draws_ext. intros xs.
    unfold runs. cbn [history dist_run dist_step]. rewrite (insert_late i d x xs _ G Hi Hb). replace (Z.of_nat (S i)) with (Z.of_nat i + 1) by lia. reflexivity.
  Qed.
  Lemma counts_nil k d i : counts k d i [] = if bool_decide (Some k ∈ d_res d) then 1 else 0.
  Proof. unfold counts. cbn [records]. rewrite wl_nil by lia. reflexivity. Qed.

  (** A position that is gone stays away. *)
  Lemma counts_gone h : forall k d i, good i d -> Z.of_nat (i + records h) < 2 ^ 63 - 1 -> k < Z.of_nat i -> Some k ∉ d_res d -> counts k d i h = 0.
  Proof.
    induction h as [|[| |] h IH]; intros k d i G Hb Hk N; cbn [records] in Hb.
    - rewrite counts_nil, bool_decide_eq_false_2 by exact N. reflexivity.
    - destruct (decide (i < 64)%nat) as [Hi|Hi].
      + rewrite (counts_early k d i h G Hi). apply IH; [apply good_set; [exact G|exact Hi|auto]|lia|lia|]. cbn [put d_res]. apply set_absent; [lia|exact N].
      + rewrite (counts_late k d i h G ltac:(lia) ltac:(lia)). rewrite (sum_ext _ (fun _ => 0)); [rewrite sum_const; lia|]. intros x _. apply IH; [apply good_put; [exact G|lia]|lia|lia|]. apply put_absent; assumption.
    - rewrite counts_query. destruct (good_query i d G) as [G' E]. apply IH; [exact G'|exact Hb|exact Hk|]. rewrite E. exact N.
    - rewrite counts_average. apply IH; assumption.
  Qed.
  Definition stay_lo (w : Z) : Z := Z.of_nat (tf w) - quot_hi (Z.of_nat (tf w)) w.
  Definition stay_hi (w : Z) : Z := Z.of_nat (tf w) - quot_lo (Z.of_nat (tf w)) w.
  Hypothesis Htf : forall w, 64 <= w -> quot_hi (Z.of_nat (tf w)) w <= Z.of_nat (tf w).
  Lemma stay_pos w : 64 <= w -> 0 <= stay_lo w <= stay_hi w.
  Proof. intros H. unfold stay_lo, stay_hi. specialize (Htf w H). unfold quot_lo. destruct (hi_cases (Z.of_nat (tf w)) w ltac:(lia)) as [[_ E]|[_ E]]; lia. Qed.
  Lemma stays_pos a b : (64 <= a)%nat -> 0 <= product (map stay_lo (wl a b)) /\ 0 <= product (map stay_hi (wl a b)).
  Proof.
    intros H. assert (G : forall w, w ∈ wl a b -> 64 <= w).
    { intros w Hw. unfold wl in Hw. apply elem_of_list_In, in_map_iff in Hw as (i & <- & Hi). apply in_seq in Hi. apply window_range. lia. }
    split; apply product_pos; apply Forall_map, Forall_forall; intros w Hw; pose proof (stay_pos w (G w Hw)); cbn; lia.
  Qed.
  (** One that is there may be replaced at each step. *)
  Lemma counts_there h : forall k d i, good i d -> Z.of_nat (i + records h) < 2 ^ 63 - 1 -> Some k ∈ d_res d ->
    product (map stay_lo (wl (Nat.max i 64) (i + records h))) <= counts k d i h <= product (map stay_hi (wl (Nat.max i 64) (i + records h))).
  Proof.
    induction h as [|[| |] h IH]; intros k d i G Hb N; cbn [records] in *.
    - rewrite counts_nil, bool_decide_eq_true_2 by exact N. rewrite wl_nil by lia. cbn. lia.
    - pose proof (g_below i d G k N) as Hk. destruct (decide (i < 64)%nat) as [Hi|Hi].
      + rewrite (counts_early k d i h G Hi). replace (Nat.max i 64) with (Nat.max (S i) 64) by lia. replace (i + S (records h))%nat with (S i + records h)%nat by lia.
        apply IH; [apply good_set; [exact G|exact Hi|auto]|lia|]. cbn [put d_res]. apply elem_of_list_lookup in N as (s & Hs). apply (set_other _ _ _ k s (g_uniq i d G)); [lia|exact Hs|].
        intros Ei. rewrite (g_unused i d G s) in Hs by lia. discriminate Hs.
      + rewrite (counts_late k d i h G ltac:(lia) ltac:(lia)). replace (Nat.max i 64) with i by lia. rewrite wl_cons by lia. replace (i + S (records h))%nat with (S i + records h)%nat by lia.
        apply elem_of_list_lookup in N as (s & Hs). pose proof (lookup_lt_Some _ _ _ Hs) as L. rewrite (g_length i d G) in L.
        set (w := window W (Z.of_nat i)). pose proof (window_range (Z.of_nat i) ltac:(lia)) as R. fold w in R.
        pose proof (hits_bounds (Z.of_nat s) w (tf w) ltac:(lia)) as Hh. destruct (stays_pos (S i) (S i + records h) ltac:(lia)) as [P1 P2].
        set (A := product (map stay_lo (wl (S i) (S i + records h)))) in *. set (C := product (map stay_hi (wl (S i) (S i + records h)))) in *.
        assert (S1 : forall x, (if x mod w =? Z.of_nat s then 0 else A) <= counts k (put_at d (Z.of_nat i) x) (S i) h <= (if x mod w =? Z.of_nat s then 0 else C)).
        { intros x. pose proof (put_other i d x k s G ltac:(lia) ltac:(lia) Hs) as O. fold w in O. destruct (Z.eqb_spec (x mod w) (Z.of_nat s)) as [E|E].
          - rewrite counts_gone; [lia|apply good_put; [exact G|lia]|lia|lia|]. intros F. apply O in F. contradiction.
          - pose proof (IH k (put_at d (Z.of_nat i) x) (S i)) as B. replace (Nat.max (S i) 64) with (S i) in B by lia. apply B; [apply good_put; [exact G|lia]|lia|apply O, E]. }
        cbn [map]. change (product (?a :: ?l)) with (a * product l). fold A C. split.
        * transitivity (sum_below (fun x => if x mod w =? Z.of_nat s then 0 else A) (tf w)); [|apply sum_le; intros x _; apply S1]. rewrite sum_if. unfold stay_lo. nia.
        * transitivity (sum_below (fun x => if x mod w =? Z.of_nat s then 0 else C) (tf w)); [apply sum_le; intros x _; apply S1|]. rewrite sum_if. unfold stay_hi. nia.
    - rewrite counts_query. destruct (good_query i d G) as [G' E]. apply IH; [exact G'|exact Hb|]. rewrite E. exact N.
    - rewrite counts_average. apply IH; assumption.
  Qed.
  Definition enter_lo (k : nat) : Z := if decide (k < 64)%nat then 1 else let w := window W (Z.of_nat k) in 64 * quot_lo (Z.of_nat (tf w)) w.
  Definition enter_hi (k : nat) : Z := if decide (k < 64)%nat then 1 else let w := window W (Z.of_nat k) in 64 * quot_hi (Z.of_nat (tf w)) w.
  Definition total_of (w : Z) : Z := Z.of_nat (tf w).
  (** One that is still to come. *)
  Lemma counts_coming h : forall d i p, good i d -> Z.of_nat (i + records h) < 2 ^ 63 - 1 -> (p < records h)%nat ->
    let k := (i + p)%nat in let n := (i + records h)%nat in
    product (map total_of (wl (Nat.max i 64) k)) * (enter_lo k * product (map stay_lo (wl (Nat.max (S k) 64) n))) <= counts (Z.of_nat k) d i h <=
    product (map total_of (wl (Nat.max i 64) k)) * (enter_hi k * product (map stay_hi (wl (Nat.max (S k) 64) n))).
  Proof.
    induction h as [|[| |] h IH]; intros d i p G Hb Hp; cbn [records] in Hb, Hp.
    - lia.
    - intros k n. destruct p as [|p].
      + unfold k, n in *. clear k n. cbn [records]. rewrite Nat.add_0_r. rewrite wl_nil by lia. cbn [map]. change (product []) with 1. rewrite !Z.mul_1_l. replace (i + S (records h))%nat with (S i + records h)%nat by lia.
        destruct (decide (i < 64)%nat) as [Hi|Hi].
        * rewrite (counts_early _ d i h G Hi). unfold enter_lo, enter_hi. rewrite !decide_True by exact Hi. rewrite !Z.mul_1_l.
          apply counts_there; [apply good_set; [exact G|exact Hi|auto]|lia|]. cbn [put d_res]. apply set_in. rewrite (g_length i d G). exact Hi.
        * rewrite (counts_late _ d i h G ltac:(lia) ltac:(lia)). unfold enter_lo, enter_hi. rewrite !decide_False by exact Hi. cbv zeta.
          set (w := window W (Z.of_nat i)). pose proof (window_range (Z.of_nat i) ltac:(lia)) as R. fold w in R. pose proof (enter_bounds w (tf w) ltac:(lia)) as He.
          replace (Nat.max (S i) 64) with (S i) by lia. destruct (stays_pos (S i) (S i + records h) ltac:(lia)) as [P1 P2].
          set (A := product (map stay_lo (wl (S i) (S i + records h)))) in *. set (C := product (map stay_hi (wl (S i) (S i + records h)))) in *.
          assert (S1 : forall x, (if x mod w <? 64 then A else 0) <= counts (Z.of_nat i) (put_at d (Z.of_nat i) x) (S i) h <= (if x mod w <? 64 then C else 0)).
          { intros x. pose proof (put_new i d x G ltac:(lia)) as O. fold w in O. destruct (Z.ltb_spec (x mod w) 64) as [E|E].
            - pose proof (counts_there h (Z.of_nat i) (put_at d (Z.of_nat i) x) (S i)) as B. replace (Nat.max (S i) 64) with (S i) in B by lia. apply B; [apply good_put; [exact G|lia]|lia|apply O, E].
            - rewrite counts_gone; [lia|apply good_put; [exact G|lia]|lia|lia|]. intros F. apply O in F. lia. }
          split.
          -- transitivity (sum_below (fun x => if x mod w <? 64 then A else 0) (tf w)); [|apply sum_le; intros x _; apply S1]. rewrite sum_if. nia.
          -- transitivity (sum_below (fun x => if x mod w <? 64 then C else 0) (tf w)); [apply sum_le; intros x _; apply S1|]. rewrite sum_if. nia.
      + assert (Ek : k = (S i + p)%nat) by (unfold k; lia). assert (En : n = (S i + records h)%nat) by (unfold n; cbn [records]; lia). clearbody k n. subst k n.
        destruct (decide (i < 64)%nat) as [Hi|Hi].
        * rewrite (counts_early _ d i h G Hi). replace (Nat.max i 64) with (Nat.max (S i) 64) by lia. apply IH; [apply good_set; [exact G|exact Hi|auto]|lia|lia].
        * rewrite (counts_late _ d i h G ltac:(lia) ltac:(lia)). replace (Nat.max i 64) with i by lia. rewrite (wl_cons i) by lia. cbn [map]. change (product (?a :: ?l)) with (a * product l). rewrite <- !Z.mul_assoc.
          unfold total_of at 1 3. set (w := window W (Z.of_nat i)).
          assert (S1 : forall x, product (map total_of (wl (S i) (S i + p))) * (enter_lo (S i + p) * product (map stay_lo (wl (Nat.max (S (S i + p)) 64) (S i + records h)))) <= counts (Z.of_nat (S i + p)) (put_at d (Z.of_nat i) x) (S i) h <=
                              product (map total_of (wl (S i) (S i + p))) * (enter_hi (S i + p) * product (map stay_hi (wl (Nat.max (S (S i + p)) 64) (S i + records h))))).
          { intros x. pose proof (IH (put_at d (Z.of_nat i) x) (S i) p) as B. replace (Nat.max (S i) 64) with (S i) in B by lia. apply B; [apply good_put; [exact G|lia]|lia|lia]. }
          split; rewrite <- sum_const; apply sum_le; intros x _; apply S1.
    - cbv zeta. cbn [records]. rewrite counts_query. apply IH; [apply good_query, G|exact Hb|exact Hp].
    - cbv zeta. cbn [records]. rewrite counts_average. apply IH; assumption.
  Qed.
End run.

(** ** From the start *)
Lemma start_good r : good 0 (dist_new (V := Z) (F := option Z) 0 None r).
Proof.
  split; cbn [dist_new d_count d_res].
  - reflexivity.
  - reflexivity.
  - intros a b k Ha. apply lookup_replicate in Ha as [Ha _]. discriminate Ha.
  - intros k Hk. apply elem_of_replicate in Hk as [Hk _]. discriminate Hk.
  - intros a _ Ha. apply lookup_replicate. split; [reflexivity|exact Ha].
Qed.
Lemma windows_wl W n : windows W n = wl W 64 n.
Proof. reflexivity. Qed.
Lemma counts_start less W tf h k : counts less W tf k (dist_new 0 None []) 0 h = count_draws (map tf (windows W (records h))) (fun draws => sampled k (positions less W h draws)).
Proof. reflexivity. Qed.
Lemma possible_product W h : W <= 0 \/ 64 <= W -> possible W h = product (windows W (records h)).
Proof.
  intros HW. unfold possible. assert (G : Forall (fun w => 0 <= w) (windows W (records h))).
  { apply Forall_forall. intros w Hw. unfold windows in Hw. apply elem_of_list_In, in_map_iff in Hw as (i & <- & Hi). apply in_seq in Hi. pose proof (window_range W HW (Z.of_nat i)). lia. }
  induction G as [|w l Hw Hl IH]; [reflexivity|]. cbn [map count_draws]. rewrite (sum_ext _ (fun _ => product l)) by (intros x _; exact IH). rewrite sum_const, Z2Nat.id by exact Hw. reflexivity.
Qed.
Lemma ideal_stay w : 64 <= w -> stay_lo Z.to_nat w = w - 1 /\ stay_hi Z.to_nat w = w - 1.
Proof.
  intros H. unfold stay_lo, stay_hi, quot_lo. rewrite Z2Nat.id by lia. rewrite Z.div_same by lia. destruct (hi_cases w w ltac:(lia)) as [[_ ->]|[E _]].
  - rewrite Z.div_same by lia. lia.
  - rewrite Z.mod_same in E by lia. lia.
Qed.
Lemma ideal_hi w : 64 <= w -> quot_hi w w = 1.
Proof. intros H. destruct (hi_cases w w ltac:(lia)) as [[_ ->]|[E _]]; [apply Z.div_same; lia|]. rewrite Z.mod_same in E by lia. lia. Qed.
Definition enter (k : nat) : Z := if decide (k < 64)%nat then 1 else 64.
Lemma favourable_exact less W h k : W <= 0 \/ 64 <= W -> Z.of_nat (records h) < 2 ^ 63 - 1 -> (k < records h)%nat ->
  favourable less W h (Z.of_nat k) = product (wl W 64 k) * (enter k * product (map (fun w => w - 1) (wl W (Nat.max (S k) 64) (records h)))).
Proof.
  intros HW Hn Hk. unfold favourable. rewrite <- counts_start.
  assert (HT : forall w, 64 <= w -> quot_hi (Z.of_nat (Z.to_nat w)) w <= Z.of_nat (Z.to_nat w)) by (intros w Hw; rewrite Z2Nat.id, ideal_hi by lia; lia).
  pose proof (counts_coming less W Z.to_nat HW HT h (dist_new 0 None []) 0 k (start_good _) Hn Hk) as H. cbv zeta in H. cbn [Nat.add] in H. change (Nat.max 0 64) with 64%nat in H.
  assert (M : forall a b, (64 <= a)%nat -> Forall (fun w => 64 <= w) (wl W a b)).
  { intros a b Ha. apply Forall_forall. intros w Hw. unfold wl in Hw. apply elem_of_list_In, in_map_iff in Hw as (i & <- & Hi). apply in_seq in Hi. apply (window_range W HW (Z.of_nat i)). lia. }
  assert (ET : map (total_of Z.to_nat) (wl W 64 k) = wl W 64 k).
  { rewrite <- (map_id (wl W 64 k)) at 2. apply map_ext_in. intros w Hw. unfold total_of. pose proof (M 64%nat k ltac:(lia)) as F. rewrite Forall_forall in F. apply elem_of_list_In, F in Hw. cbn in Hw. lia. }
  assert (EL : forall a b, (64 <= a)%nat -> map (stay_lo Z.to_nat) (wl W a b) = map (fun w => w - 1) (wl W a b) /\ map (stay_hi Z.to_nat) (wl W a b) = map (fun w => w - 1) (wl W a b)).
  { intros a b Ha. pose proof (M a b Ha) as F. rewrite Forall_forall in F. split; apply map_ext_in; intros w Hw; apply elem_of_list_In, F in Hw; apply ideal_stay; exact Hw. }
  destruct (EL (Nat.max (S k) 64) (records h) ltac:(lia)) as [E1 E2]. rewrite ET, E1, E2 in H.
  assert (EE : enter_lo W Z.to_nat k = enter k /\ enter_hi W Z.to_nat k = enter k).
  { unfold enter_lo, enter_hi, enter. destruct (decide (k < 64)%nat) as [L|L]; [split; reflexivity|]. cbv zeta. pose proof (window_range W HW (Z.of_nat k) ltac:(lia)) as R. rewrite Z2Nat.id by lia.
    unfold quot_lo. rewrite Z.div_same, ideal_hi by lia. lia. }
  destruct EE as [E3 E4]. rewrite E3, E4 in H. lia.
Qed.
(** Without a window the factors cancel. *)
Lemma wl_snoc W a b : (a <= b)%nat -> wl W a (S b) = wl W a b ++ [window W (Z.of_nat b)].
Proof. intros H. unfold wl. replace (S b - a)%nat with (S (b - a)) by lia. rewrite seq_S, map_app. cbn [map]. replace (a + (b - a))%nat with b by lia. reflexivity. Qed.
Lemma product_one x : product [x] = x.
Proof. cbn. lia. Qed.
Lemma telescope W a m : (64 <= a)%nat -> W <= 0 \/ Z.of_nat (a + m) <= W -> product (map (fun w => w - 1) (wl W a (a + m))) * Z.of_nat (a + m) = Z.of_nat a * product (wl W a (a + m)).
Proof.
  intros Ha. induction m as [|m IH]; intros HW.
  - rewrite Nat.add_0_r, wl_nil by lia. cbn. lia.
  - replace (a + S m)%nat with (S (a + m)) by lia. rewrite wl_snoc by lia. rewrite map_app, !product_app. cbn [map]. rewrite !product_one.
    assert (E : window W (Z.of_nat (a + m)) = Z.of_nat (a + m) + 1) by (unfold window; destruct (decide (0 < W)); lia). rewrite E. specialize (IH ltac:(lia)).
    replace (Z.of_nat (S (a + m))) with (Z.of_nat (a + m) + 1) by lia. replace (Z.of_nat (a + m) + 1 - 1) with (Z.of_nat (a + m)) by lia.
    set (p := product (map (fun w => w - 1) (wl W a (a + m)))) in *. set (q := product (wl W a (a + m))) in *. rewrite IH. nia.
Qed.
Lemma wl_split W a b n : (a <= b)%nat -> (b <= n)%nat -> wl W a n = wl W a b ++ wl W b n.
Proof. intros H1 H2. unfold wl. replace (n - a)%nat with ((b - a) + (n - b))%nat by lia. rewrite seq_app, map_app. replace (a + (b - a))%nat with b by lia. reflexivity. Qed.
Lemma favourable_uniform less W h k : W <= 0 \/ (64 <= W /\ Z.of_nat (records h) <= W) -> Z.of_nat (records h) < 2 ^ 63 - 1 -> (k < records h)%nat ->
  Z.of_nat (records h) * favourable less W h (Z.of_nat k) = Z.min 64 (Z.of_nat (records h)) * possible W h.
Proof.
  intros HW Hn Hk. rewrite favourable_exact by (try assumption; lia). rewrite possible_product by lia. rewrite windows_wl. unfold enter. set (n := records h) in *. clearbody n. destruct (decide (k < 64)%nat) as [L|L].
  - rewrite (wl_nil W 64 k) by lia. change (product []) with 1. rewrite !Z.mul_1_l. replace (Nat.max (S k) 64) with 64%nat by lia. destruct (decide (n <= 64)%nat) as [M|M].
    + rewrite wl_nil by lia. cbn. lia.
    + pose proof (telescope W 64 (n - 64) ltac:(lia)) as T. replace (64 + (n - 64))%nat with n in T by lia. specialize (T ltac:(lia)). lia.
  - replace (Nat.max (S k) 64) with (S k) by lia. pose proof (telescope W (S k) (n - S k) ltac:(lia)) as T. replace (S k + (n - S k))%nat with n in T by lia. specialize (T ltac:(lia)).
    rewrite (wl_split W 64 k n) by lia. rewrite (wl_cons W k n) by lia. rewrite product_app. change (product (?a :: ?l)) with (a * product l).
    assert (E : window W (Z.of_nat k) = Z.of_nat (S k)) by (unfold window; destruct (decide (0 < W)); lia). rewrite E.
    set (p := product (map (fun w => w - 1) (wl W (S k) n))) in *. set (q := product (wl W (S k) n)) in *. set (r := product (wl W 64 k)). replace (Z.min 64 (Z.of_nat n)) with 64 by lia.
    transitivity (64 * (r * (p * Z.of_nat n))); [ring|]. rewrite T. ring.
Qed.
Lemma windows_nonneg W a b : W <= 0 \/ 64 <= W -> (64 <= a)%nat -> 0 <= product (wl W a b) /\ 0 <= product (map (fun w => w - 1) (wl W a b)).
Proof.
  intros HW Ha. assert (M : forall w, w ∈ wl W a b -> 64 <= w).
  { intros w Hw. unfold wl in Hw. apply elem_of_list_In, in_map_iff in Hw as (i & <- & Hi). apply in_seq in Hi. apply (window_range W HW (Z.of_nat i)). lia. }
  split; apply product_pos; [|apply Forall_map]; apply Forall_forall; intros w Hw; specialize (M w Hw); cbn; lia.
Qed.
(** One value and the next. *)
Lemma favourable_next less W h k : W <= 0 \/ 64 <= W -> Z.of_nat (records h) < 2 ^ 63 - 1 -> (S k < records h)%nat -> (64 <= k)%nat ->
  window W (Z.of_nat k) * favourable less W h (Z.of_nat k) = (window W (Z.of_nat (S k)) - 1) * favourable less W h (Z.of_nat (S k)).
Proof.
  intros HW Hn Hk Hl. rewrite !favourable_exact by (try assumption; lia). unfold enter. rewrite !decide_False by lia. set (n := records h) in *. clearbody n.
  replace (Nat.max (S k) 64) with (S k) by lia. replace (Nat.max (S (S k)) 64) with (S (S k)) by lia. rewrite (wl_cons W (S k) n) by lia. rewrite (wl_snoc W 64 k) by lia. cbn [map]. change (product (?a :: ?l)) with (a * product l).
  rewrite product_app, product_one. ring.
Qed.
Lemma favourable_newer less W h k : W <= 0 \/ 64 <= W -> Z.of_nat (records h) < 2 ^ 63 - 1 -> (S k < records h)%nat -> favourable less W h (Z.of_nat k) <= favourable less W h (Z.of_nat (S k)).
Proof.
  intros HW Hn Hk. destruct (decide (64 <= k)%nat) as [L|L].
  - pose proof (favourable_next less W h k HW Hn Hk L) as E. pose proof (window_range W HW (Z.of_nat k) ltac:(lia)) as R.
    assert (M : window W (Z.of_nat (S k)) - 1 <= window W (Z.of_nat k)) by (unfold window; destruct (decide (0 < W)); lia).
    assert (P : 0 <= favourable less W h (Z.of_nat (S k))).
    { rewrite favourable_exact by (try assumption; lia). unfold enter. destruct (windows_nonneg W 64 (S k) HW ltac:(lia)) as [P1 _]. destruct (windows_nonneg W (Nat.max (S (S k)) 64) (records h) HW ltac:(lia)) as [_ P2]. destruct (decide _); nia. }
    nia.
  - rewrite !favourable_exact by (try assumption; lia). unfold enter. rewrite decide_True by lia. rewrite (wl_nil W 64 k) by lia. rewrite (wl_nil W 64 (S k)) by lia. change (product []) with 1. rewrite !Z.mul_1_l.
    replace (Nat.max (S k) 64) with 64%nat by lia. destruct (decide (S k < 64)%nat) as [M|M].
    + replace (Nat.max (S (S k)) 64) with 64%nat by lia. lia.
    + assert (k = 63%nat) by lia. subst k. change (Nat.max 65 64) with 65%nat. rewrite (wl_cons W 64) by lia. cbn [map]. change (product (?a :: ?l)) with (a * product l).
      destruct (windows_nonneg W 65 (records h) HW ltac:(lia)) as [_ P]. pose proof (window_range W HW (Z.of_nat 64) ltac:(lia)). set (p := product _) in *. set (w := window W (Z.of_nat 64)) in *. clearbody p w. nia.
Qed.
(** With 64-bit numbers. *)
Lemma favourable64_bounds less W h k : W <= 0 \/ 64 <= W -> Z.of_nat (records h) < 2 ^ 63 - 1 -> (k < records h)%nat ->
  let T := 2 ^ 64 in
  let before := T ^ Z.of_nat (k - 64) in
  let after := windows W (records h) in
  let rest := drop (S k - 64) (windows W (records h)) in
  let w := window W (Z.of_nat k) in
  let chance q := if decide (k < 64)%nat then 1 else 64 * q in
  before * (chance (quot_lo T w) * product (map (fun w => T - quot_hi T w) rest)) <= favourable64 less W h (Z.of_nat k) <=
  before * (chance (quot_hi T w) * product (map (fun w => T - quot_lo T w) rest)).
Proof.
  intros HW Hn Hk T before after rest w chance. unfold favourable64.
  set (tf := fun _ : Z => Z.to_nat (2 ^ 64)).
  assert (TT : forall v, Z.of_nat (tf v) = T) by (intros v; apply Z2Nat.id; unfold T; lia). clearbody tf.
  assert (HT : forall w, 64 <= w -> quot_hi (Z.of_nat (tf w)) w <= Z.of_nat (tf w)).
  { intros v Hv. rewrite TT. unfold quot_hi. apply Z.div_le_upper_bound; [lia|]. assert (1 <= T) by (unfold T; lia). nia. }
  pose proof (counts_coming less W tf HW HT h (dist_new 0 None []) 0 k (start_good _) Hn Hk) as H. cbv zeta in H. cbn [Nat.add] in H. change (Nat.max 0 64) with 64%nat in H. rewrite counts_start in H.
  assert (EB : product (map (total_of tf) (wl W 64 k)) = before).
  { unfold before. assert (G : forall l : list nat, product (map (total_of tf) (map (fun i => window W (Z.of_nat i)) l)) = T ^ Z.of_nat (length l)).
    { induction l as [|x l IH]; [reflexivity|]. cbn [map length]. change (product (?a :: ?l)) with (a * product l). rewrite IH. unfold total_of. rewrite TT, Nat2Z.inj_succ, Z.pow_succ_r by lia. reflexivity. }
    unfold wl. rewrite G, seq_length. reflexivity. }
  assert (ER : wl W (Nat.max (S k) 64) (records h) = rest).
  { unfold rest. rewrite windows_wl. destruct (decide (S k <= 64)%nat) as [L|L].
    - replace (S k - 64)%nat with 0%nat by lia. replace (Nat.max (S k) 64) with 64%nat by lia. reflexivity.
    - replace (Nat.max (S k) 64) with (S k) by lia. rewrite (wl_split W 64 (S k) (records h)) by lia. rewrite drop_app_alt; [reflexivity|]. unfold wl. rewrite map_length, seq_length. reflexivity. }
  assert (ES : map (stay_lo tf) rest = map (fun w => T - quot_hi T w) rest /\ map (stay_hi tf) rest = map (fun w => T - quot_lo T w) rest).
  { split; apply map_ext; intros v; unfold stay_lo, stay_hi; rewrite TT; reflexivity. }
  assert (EC : enter_lo W tf k = chance (quot_lo T w) /\ enter_hi W tf k = chance (quot_hi T w)).
  { unfold enter_lo, enter_hi, chance. destruct (decide (k < 64)%nat); [split; reflexivity|]. cbv zeta. rewrite TT. split; reflexivity. }
  destruct ES as [E1 E2]. destruct EC as [E3 E4]. rewrite EB, ER, E1, E2, E3, E4 in H. exact H.
Qed.

(** ** Values instead of positions *)
Section image.
  Context {V F R : Type} (vzero : V) (vlt : V -> V -> bool) (vadd : V -> V -> V) (fzero : F) (to32 : V -> F) (fless : F -> F -> bool) (next : R -> Z * R) (val : Z -> V).
  Local Notation image := (image fzero to32 val).
  Definition iless (a b : option Z) : bool := fless (image a) (image b).
  Lemma sinsert_image x l : map image (sinsert iless x l) = sinsert fless (image x) (map image l).
  Proof. induction l as [|y l IH]; [reflexivity|]. cbn [sinsert map]. change (iless x y) with (fless (image x) (image y)). destruct (fless (image x) (image y)); cbn [map]; [reflexivity|rewrite IH; reflexivity]. Qed.
  Lemma isort_image l : map image (isort iless l) = isort fless (map image l).
  Proof. induction l as [|y l IH]; [reflexivity|]. cbn [isort map]. rewrite sinsert_image, IH. reflexivity. Qed.
  Record like (m : nat) (d : dist V F R) (t : dist Z (option Z) (list Z)) : Prop := Like {
    l_count : d_count d = d_count t; l_res : d_res d = map image (d_res t); l_sorted : d_sorted d = d_sorted t;
    l_rng : exists m', (m <= m')%nat /\ d_rng t = outputs next (d_rng d) m' }.
  Lemma set_image res i v : set_slot (map image res) i (to32 (val v)) = match set_slot res i (Some v) with Ok r => Ok (map image r) | Panic e => Panic e end.
  Proof.
    unfold set_slot. rewrite map_length. destruct (_ && _); [|reflexivity]. f_equal. symmetry. exact (list_fmap_insert image res (Z.to_nat i) (Some v)).
  Qed.
  Lemma insert_like m W d t v : like (S m) d t ->
    match dist_insert vlt vadd to32 next W d (val v), dist_insert Z.ltb Z.add Some draw W t v with
    | Ok d', Ok t' => like m d' t'
    | Panic a, Panic b => a = b
    | _, _ => False
    end.
  Proof.
    intros [Hc Hr Hs (m' & Hm & Hg)]. unfold dist_insert. rewrite Hc. destruct (d_count t <? ReservoirSize).
    - rewrite Hr, set_image. destruct (set_slot (d_res t) (d_count t) (Some v)); [|reflexivity]. split; cbn [d_count d_res d_sorted d_rng]; try reflexivity. exists m'. split; [lia|exact Hg].
    - destruct m' as [|m']; [lia|]. cbn [outputs] in Hg. rewrite Hg. cbn [draw]. destruct (next (d_rng d)) as [x r]. cbn [fst snd].
      destruct (u64 _ =? 0); [reflexivity|]. destruct (_ <? ReservoirSize).
      + rewrite Hr, set_image. destruct (set_slot _ _ _); [|reflexivity]. split; cbn [d_count d_res d_sorted d_rng]; try reflexivity. exists m'. split; [lia|reflexivity].
      + split; cbn [d_count d_res d_sorted d_rng]; try assumption; try reflexivity. exists m'. split; [lia|reflexivity].
  Qed.
  Lemma query_like m d t : like m d t -> like m (query_state fless d) (query_state iless t).
  Proof.
    intros [Hc Hr Hs Hg]. unfold query_state, rlen. rewrite Hc, Hs. destruct (_ <? 2); [split; assumption|]. destruct (d_sorted t) eqn:E; [split; try assumption; congruence|].
    split; cbn [d_count d_res d_sorted d_rng]; try assumption; try reflexivity. rewrite map_app, isort_image, Hr. rewrite <- !fmap_take, <- !fmap_drop. reflexivity.
  Qed.
  Lemma run_like W h : forall i d t, like (records h) d t ->
    match dist_run vzero vlt vadd to32 fless next d (history val W i h), dist_run 0 Z.ltb Z.add Some iless draw t (history (fun i => i) W i h) with
    | Ok d', Ok t' => d_res d' = map image (d_res t')
    | Panic a, Panic b => a = b
    | _, _ => False
    end.
  Proof.
    induction h as [|[| |] h IH]; intros i d t L; cbn [history dist_run dist_step records] in *.
    - apply L.
    - pose proof (insert_like _ W d t i L) as H. destruct (dist_insert vlt vadd to32 next W d (val i)) as [d'|], (dist_insert Z.ltb Z.add Some draw W t i) as [t'|]; try contradiction; [|exact H]. apply IH, H.
    - apply IH, query_like, L.
    - apply IH, L.
  Qed.
  Lemma start_like r m : like m (dist_new vzero fzero r) (dist_new 0 None (outputs next r m)).
  Proof. split; try reflexivity. exists m. split; reflexivity. Qed.
End image.
