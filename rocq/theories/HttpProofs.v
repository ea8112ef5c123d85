(** Proofs for package http. *)
From Verif Require Import Base BaseProofs Strings ScopeSpec HttpModel HttpSpec.
Open Scope Z_scope.
Local Arguments B : simpl never.

(** ** Hex *)
Lemma wrap64_pos v : 0 <= v < 2 ^ 63 -> wrap64 v = v.
Proof. intros H. unfold wrap64. rewrite Z.mod_small by lia. lia. Qed.
Lemma wrap64_neg v : 2 ^ 63 <= v < 2 ^ 64 -> wrap64 v = v - 2 ^ 64.
Proof.
  intros H. unfold wrap64. replace (v + 2 ^ 63) with ((v - 2 ^ 63) + 1 * 2 ^ 64) by lia.
  rewrite Z.mod_add by lia. rewrite Z.mod_small by lia. lia.
Qed.
Lemma digits_enum (P : Z -> Prop) :
  P 0 -> P 1 -> P 2 -> P 3 -> P 4 -> P 5 -> P 6 -> P 7 -> P 8 -> P 9 -> P 10 -> P 11 -> P 12 -> P 13 -> P 14 -> P 15 ->
  forall d, 0 <= d < 16 -> P d.
Proof.
  intros. assert (C : d = 0 \/ d = 1 \/ d = 2 \/ d = 3 \/ d = 4 \/ d = 5 \/ d = 6 \/ d = 7 \/ d = 8 \/ d = 9 \/ d = 10 \/
    d = 11 \/ d = 12 \/ d = 13 \/ d = 14 \/ d = 15) by lia.
  repeat (destruct C as [->|C]; [assumption|]). subst. assumption.
Qed.
Lemma digit_val_hex d : 0 <= d < 16 -> digit_val (hex_digit d) = Some d.
Proof. revert d. apply digits_enum; vm_compute; reflexivity. Qed.
Lemma hex_digit_char d : 0 <= d < 16 -> hex_char (hex_digit d) d.
Proof. intros H. split; [exact H|]. left. revert d H. apply digits_enum; vm_compute; reflexivity. Qed.
Lemma digit_val_char c d : hex_char c d -> digit_val c = Some d.
Proof.
  intros [Hd H]. revert d Hd c H.
  apply (digits_enum (fun d => forall c, _ \/ _ -> digit_val c = Some d)); intros c [H|H]; vm_compute in H;
    (assert (E : forall x y : ascii, Some x = Some y -> y = x) by congruence); apply E in H; rewrite H; vm_compute; reflexivity.
Qed.
Definition all_bytes : list ascii := map (fun n => ascii_of_nat n) (seq 0 256).
Lemma all_bytes_elem c : c ∈ all_bytes.
Proof.
  unfold all_bytes. apply elem_of_list_In, in_map_iff. exists (nat_of_ascii c). split; [apply ascii_nat_embedding|].
  apply in_seq. split; [lia|]. apply nat_ascii_bounded.
Qed.
Definition char_ok (c : ascii) : bool :=
  match digit_val c with
  | None => true
  | Some d => if 16 <=? d then true else
      (0 <=? d) && (bool_decide (B "0123456789abcdef" !! Z.to_nat d = Some c) || bool_decide (B "0123456789ABCDEF" !! Z.to_nat d = Some c))
  end.
Lemma char_ok_all : forallb char_ok all_bytes = true.
Proof. vm_compute. reflexivity. Qed.
Lemma char_digit_val c d : digit_val c = Some d -> d < 16 -> hex_char c d.
Proof.
  intros H Hd. pose proof char_ok_all as A. rewrite forallb_forall in A.
  specialize (A c (proj1 (elem_of_list_In _ _) (all_bytes_elem c))). unfold char_ok in A. rewrite H in A.
  destruct (Z.leb_spec 16 d); [lia|]. apply andb_prop in A as [A1 A2]. split; [lia|].
  apply orb_prop in A2 as [A2|A2]; apply bool_decide_eq_true in A2; auto.
Qed.

Lemma u64_small n : 0 <= n < 2 ^ 64 -> u64 n = n.
Proof. intros H. unfold u64. apply Z.mod_small, H. Qed.
(** One digit of the parser, within and outside the range. *)
Lemma parse_digit n d s c : 0 <= n < 2 ^ 60 -> hex_char c d -> parse_go (2 ^ 60) n (c :: s) = parse_go (2 ^ 60) (16 * n + d) s.
Proof.
  intros Hn Hc. pose proof (proj1 Hc) as Hd. cbn [parse_go]. rewrite (digit_val_char c d Hc).
  destruct (Z.leb_spec 16 d); [lia|]. destruct (Z.leb_spec (2 ^ 60) n); [lia|].
  rewrite u64_small by lia. destruct (Z.ltb_spec (n * 16 + d) (n * 16)); [lia|]. f_equal. lia.
Qed.
Lemma parse_digit_inv n s c v : 0 <= n -> parse_go (2 ^ 60) n (c :: s) = Some v ->
  exists d, hex_char c d /\ n < 2 ^ 60 /\ parse_go (2 ^ 60) (16 * n + d) s = Some v.
Proof.
  intros Hn H. cbn [parse_go] in H. destruct (digit_val c) as [d|] eqn:E; [|discriminate].
  destruct (Z.leb_spec 16 d); [discriminate|]. destruct (Z.leb_spec (2 ^ 60) n); [discriminate|].
  pose proof (char_digit_val c d E ltac:(lia)) as Hc. pose proof (proj1 Hc) as Hd. rewrite u64_small in H by lia.
  destruct (Z.ltb_spec (n * 16 + d) (n * 16)); [discriminate|]. exists d. split; [exact Hc|]. split; [lia|].
  replace (16 * n + d) with (n * 16 + d) by lia. exact H.
Qed.
Lemma hex_num_nonneg s n : hex_num s n -> 0 <= n.
Proof. induction 1 as [c d H|s n c d _ IH H]; destruct H as [H _]; lia. Qed.
Lemma hex_num_nonnil s n : hex_num s n -> s <> [].
Proof. destruct 1; [discriminate|]. destruct s; discriminate. Qed.
(** Parsing a whole numeral from zero, followed by anything. *)
Lemma parse_num s n t : hex_num s n -> n < 2 ^ 64 -> parse_go (2 ^ 60) 0 (s ++ t) = parse_go (2 ^ 60) n t.
Proof.
  intros H. revert t. induction H as [c d H|s n c d Hn IH H]; intros t Hlt.
  - cbn [app]. rewrite (parse_digit 0 d t c) by (lia || exact H). f_equal; lia.
  - pose proof (hex_num_nonneg s n Hn) as H0. pose proof (proj1 H) as Hd. rewrite <- app_assoc, IH by lia. cbn [app].
    apply parse_digit; [lia|exact H].
Qed.
Lemma parse_num_inv s v : forall p n, hex_num p n -> n < 2 ^ 64 -> parse_go (2 ^ 60) n s = Some v -> hex_num (p ++ s) v /\ v < 2 ^ 64.
Proof.
  induction s as [|c s IH]; intros p n Hp Hlt H.
  - cbn in H. assert (n = v) by congruence. subst v. rewrite app_nil_r. auto.
  - apply parse_digit_inv in H as (d & Hc & Hn & H); [|exact (hex_num_nonneg p n Hp)].
    replace (p ++ c :: s) with ((p ++ [c]) ++ s) by (rewrite <- app_assoc; reflexivity).
    pose proof (proj1 Hc). apply (IH _ (16 * n + d)); [constructor; assumption|lia|exact H].
Qed.
Lemma hex_to_uint64_spec s v : hex_to_uint64 s = Some v <-> id_field s v.
Proof.
  split.
  - intros H. destruct s as [|c s]; [discriminate|]. cbn [hex_to_uint64] in H.
    destruct (parse_go (2 ^ 60) 0 (c :: s)) as [n|] eqn:E; [|discriminate]. cbn [option_map] in H.
    apply parse_digit_inv in E as (d & Hc & _ & E); [|lia]. replace (16 * 0 + d) with d in E by lia.
    pose proof (proj1 Hc). destruct (parse_num_inv s n [c] d (hex_one c d Hc) ltac:(lia) E) as [Hnum Hlt].
    exists n. split; [exact Hnum|]. split; [exact Hlt|]. assert (v = wrap64 n) by congruence. subst v.
    pose proof (hex_num_nonneg _ _ Hnum). destruct (Z.ltb_spec n (2 ^ 63)); [apply wrap64_pos; lia|apply wrap64_neg; lia].
  - intros (n & Hnum & Hlt & ->). pose proof (hex_num_nonneg _ _ Hnum). unfold hex_to_uint64. destruct s as [|c s]; [destruct (hex_num_nonnil _ _ Hnum eq_refl)|].
    pose proof (parse_num _ _ [] Hnum Hlt) as E. rewrite app_nil_r in E. rewrite E. cbn [parse_go option_map]. f_equal.
    destruct (Z.ltb_spec n (2 ^ 63)); [apply wrap64_pos; lia|apply wrap64_neg; lia].
Qed.

(** Printing. *)
Lemma hex_go_num fuel : forall u acc, 0 <= u < 16 ^ (Z.of_nat fuel) -> (0 < fuel)%nat ->
  exists s, hex_go fuel u acc = s ++ acc /\ hex_num s u.
Proof.
  induction fuel as [|fuel IH]; intros u acc Hu Hf; [lia|]. cbn [hex_go]. destruct (Z.ltb_spec u 16) as [Hs|Hs].
  - exists [hex_digit u]. split; [reflexivity|]. constructor. apply hex_digit_char. lia.
  - assert (Hm : 0 <= u mod 16 < 16) by (apply Z.mod_pos_bound; lia). pose proof (Z.div_mod u 16 ltac:(lia)) as Hdm.
    rewrite Nat2Z.inj_succ, Z.pow_succ_r in Hu by lia.
    assert (Hq : 0 <= u / 16 < 16 ^ Z.of_nat fuel) by (split; [apply Z.div_pos; lia|apply Z.div_lt_upper_bound; lia]).
    destruct fuel as [|fuel]; [cbn in Hq; pose proof (Z.div_le_lower_bound u 16 1 ltac:(lia) ltac:(lia)); lia|].
    destruct (IH (u / 16) (hex_digit (u mod 16) :: acc) Hq ltac:(lia)) as (s & E & Hn).
    exists (s ++ [hex_digit (u mod 16)]). split; [rewrite E, <- app_assoc; reflexivity|].
    rewrite Hdm at 2. constructor; [exact Hn|]. apply hex_digit_char, Hm.
Qed.
Lemma zeros_num k s n : hex_num s n -> hex_num (zeros k ++ s) n.
Proof.
  intros H. unfold zeros. induction H as [c d H|s n c d Hn IH H].
  - assert (Hz : hex_char "0" 0) by (split; [lia|left; reflexivity]).
    destruct k as [|k]; [constructor; exact H|]. replace d with (16 * 0 + d) by lia. constructor; [|exact H].
    clear H. induction k as [|k IHk]; [exact (hex_one _ _ Hz)|].
    replace (List.repeat "0"%char (S (S k))) with (List.repeat "0"%char (S k) ++ ["0"%char]); [|clear; induction k as [|k IH]; [reflexivity|cbn; f_equal; exact IH]].
    exact (hex_more _ 0 _ 0 IHk Hz).
  - rewrite app_assoc. constructor; assumption.
Qed.
Lemma fmt_hex_num w v : plain_id v -> hex_num (fmt_hex w v) v.
Proof.
  intros H. red in H. unfold fmt_hex. rewrite Z.abs_eq by lia. destruct (Z.ltb_spec v 0); [lia|]. apply zeros_num.
  destruct (hex_go_num 16 v [] ) as (s & E & Hn); [change (16 ^ Z.of_nat 16) with (2 ^ 64); lia|lia|].
  rewrite E, app_nil_r. exact Hn.
Qed.
Lemma hex_char_not_dash c d : hex_char c d -> c <> dash.
Proof. intros H E. pose proof (digit_val_char c d H) as D. subst c. vm_compute in D. discriminate. Qed.
Lemma hex_num_no_dash s n : hex_num s n -> dash ∉ s.
Proof.
  induction 1 as [c d H|s n c d _ IH H]; intros E.
  - apply elem_of_list_singleton in E. exact (hex_char_not_dash c d H (eq_sym E)).
  - apply elem_of_app in E as [E|E]; [contradiction|]. apply elem_of_list_singleton in E. exact (hex_char_not_dash c d H (eq_sym E)).
Qed.
Lemma fmt_hex_id w v : plain_id v -> id_field (fmt_hex w v) v.
Proof.
  intros H. exists v. split; [apply fmt_hex_num, H|]. red in H. split; [lia|]. destruct (Z.ltb_spec v (2 ^ 63)); lia.
Qed.

(** ** Reading a traceparent *)
Lemma split_four s a b c d : split dash s = [a; b; c; d] <->
  s = a ++ dash :: b ++ dash :: c ++ dash :: d /\ dash ∉ a /\ dash ∉ b /\ dash ∉ c /\ dash ∉ d.
Proof.
  split.
  - intros H. pose proof (split_join dash s) as J. pose proof (split_free dash s) as F. rewrite H in J, F.
    cbn [join app] in J. split; [symmetry; exact J|]. rewrite !Forall_cons in F. intuition.
  - intros (-> & Ha & Hb & Hc & Hd). rewrite (split_app dash a _ Ha), (split_app dash b _ Hb), (split_app dash c _ Hc), (split_one dash d Hd). reflexivity.
Qed.
Lemma id_field_no_dash s v : id_field s v -> dash ∉ s.
Proof. intros (n & H & _). exact (hex_num_no_dash s n H). Qed.
Lemma flag_bit n v : 0 <= n < 2 ^ 64 -> v = (if n <? 2 ^ 63 then n else n - 2 ^ 64) ->
  (Z.land (v mod 256) 1 =? 1) = Z.odd n.
Proof.
  intros Hn ->. assert (E : (if n <? 2 ^ 63 then n else n - 2 ^ 64) mod 256 = n mod 256).
  { destruct (n <? 2 ^ 63); [reflexivity|]. replace (n - 2 ^ 64) with (n + (- 2 ^ 56) * 256) by lia. apply Z.mod_add. lia. }
  rewrite E. change 1 with (Z.ones 1) at 1. rewrite Z.land_ones by lia. change (2 ^ 1) with 2.
  assert (E2 : (n mod 256) mod 2 = n mod 2) by (symmetry; apply Znumtheory.Zmod_div_mod; [lia|lia|exists 128; lia]).
  rewrite E2, Zmod_odd. destruct (Z.odd n); reflexivity.
Qed.

Lemma info_traceparent h allowed t p flags : traceparent (hget k_parent h) t p flags ->
  info_from_header h allowed = TI (Some t) (Some p) (Z.odd flags) (Some (import_baggage allowed (hget k_baggage h))).
Proof.
  intros (a & b & c & d & E & Ha & Hb & Hc & n & Hd & Hlt & ->). unfold info_from_header.
  set (f := if n <? 2 ^ 63 then n else n - 2 ^ 64).
  assert (Hf : id_field d f) by (exists n; auto).
  pose proof (hex_num_nonneg _ _ Hd).
  assert (Hs : split dash (hget k_parent h) = [a; b; c; d]).
  { apply split_four. split; [exact E|]. split_and!; eapply id_field_no_dash; eassumption. }
  destruct (hget k_parent h) as [|x tp]; [destruct a; discriminate|]. rewrite Hs.
  rewrite (proj2 (hex_to_uint64_spec a 0) Ha), (proj2 (hex_to_uint64_spec b t) Hb), (proj2 (hex_to_uint64_spec c p) Hc), (proj2 (hex_to_uint64_spec d f) Hf).
  rewrite (flag_bit n f ltac:(lia) eq_refl). reflexivity.
Qed.
Lemma info_cases h allowed :
  (exists t p flags, traceparent (hget k_parent h) t p flags) \/
  info_from_header h allowed = ti_none \/
  (hget k_parent h = [] /\ info_from_header h allowed = TI None None true None).
Proof.
  unfold info_from_header. destruct (hget k_parent h) as [|x tp] eqn:E.
  - destruct (contains sampled_true (hget k_state h)); auto.
  - remember (x :: tp) as s eqn:Es. clear E Es.
    destruct (split dash s) as [|a [|b [|c [|d [|]]]]] eqn:Hs; auto.
    destruct (hex_to_uint64 a) as [va|] eqn:Ha; auto. destruct (hex_to_uint64 b) as [vb|] eqn:Hb; auto.
    destruct (hex_to_uint64 c) as [vc|] eqn:Hc; auto. destruct (hex_to_uint64 d) as [vd|] eqn:Hd; auto.
    destruct (Z.eqb_spec va 0) as [->|]; auto. left. apply hex_to_uint64_spec in Ha, Hb, Hc, Hd.
    apply split_four in Hs as [Hs _]. destruct Hd as (n & Hd & Hlt & _).
    exists vb, vc, n, a, b, c, d. split_and!; auto. exists n. auto.
Qed.
Lemma info_ids h allowed t p :
  ti_trace (info_from_header h allowed) = Some t /\ ti_parent (info_from_header h allowed) = Some p <->
  exists flags, traceparent (hget k_parent h) t p flags.
Proof.
  split.
  - intros [Ht Hp]. destruct (info_cases h allowed) as [(t' & p' & f & H)|[H|[_ H]]].
    + rewrite (info_traceparent h allowed t' p' f H) in Ht, Hp. cbn in Ht, Hp. assert (t' = t) by congruence. assert (p' = p) by congruence. subst. exists f. exact H.
    + rewrite H in Ht. discriminate.
    + rewrite H in Ht. discriminate.
  - intros [f H]. rewrite (info_traceparent h allowed t p f H). auto.
Qed.
Lemma info_both h allowed : ti_trace (info_from_header h allowed) = None <-> ti_parent (info_from_header h allowed) = None.
Proof.
  destruct (info_cases h allowed) as [(t & p & f & H)|[H|[_ H]]]; [|rewrite H; tauto..].
  rewrite (info_traceparent h allowed t p f H). cbn. split; discriminate.
Qed.
Lemma info_malformed h allowed : hget k_parent h <> [] -> (forall t p f, ~ traceparent (hget k_parent h) t p f) ->
  info_from_header h allowed = ti_none.
Proof.
  intros Hne H. destruct (info_cases h allowed) as [(t & p & f & X)|[X|[X _]]]; [destruct (H t p f X)|exact X|contradiction].
Qed.
Lemma hex_num_det s n m : hex_num s n -> hex_num s m -> n = m.
Proof.
  intros H. revert m. induction H as [c d H|s n c d Hn IH H]; intros m Hm.
  - inversion Hm as [c' d' H' E|s' n' c' d' Hn' H' E].
    + subst. pose proof (digit_val_char c d H). pose proof (digit_val_char c m H'). congruence.
    + destruct s' as [|x s']; [destruct (hex_num_nonnil _ _ Hn' eq_refl)|]. destruct s'; discriminate.
  - inversion Hm as [c' d' H' E|s' n' c' d' Hn' H' E].
    + subst. destruct s as [|x s]; [destruct (hex_num_nonnil _ _ Hn eq_refl)|]. destruct s; discriminate.
    + apply app_inj_tail in E as [E1 E2]. subst. rewrite (IH n' Hn').
      pose proof (digit_val_char c d H) as D1. pose proof (digit_val_char c d' H') as D2. rewrite D1 in D2.
      assert (d = d') by congruence. subst. reflexivity.
Qed.
Lemma info_long h allowed a b rest n : dash ∉ a -> hget k_parent h = a ++ dash :: b ++ dash :: rest -> hex_num b n -> 2 ^ 64 <= n ->
  info_from_header h allowed = ti_none.
Proof.
  intros Ha E Hb Hn. apply info_malformed; [rewrite E; destruct a; discriminate|].
  intros t p f (a' & b' & c' & d' & E' & Ha' & (m & Hb' & Hlt & _) & _). rewrite E in E'.
  pose proof (split_app dash a (b ++ dash :: rest) Ha) as S1. rewrite (split_app dash b rest (hex_num_no_dash b n Hb)), E' in S1.
  rewrite (split_app dash a' _ (id_field_no_dash _ _ Ha')), (split_app dash b' _ (hex_num_no_dash b' m Hb')) in S1.
  assert (b' = b) by congruence. subst b'. pose proof (hex_num_det b n m Hb Hb'). lia.
Qed.

(** strings.Contains. *)
Lemma has_prefix_spec p s : has_prefix p s = true <-> exists t, s = p ++ t.
Proof.
  revert s. induction p as [|a p IH]; intros s.
  - cbn. split; [intros _; exists s; reflexivity|reflexivity].
  - destruct s as [|b s]; cbn; [split; [discriminate|intros [t E]; discriminate]|]. rewrite andb_true_iff, IH. split.
    + intros [E [t ->]]. apply Ascii.eqb_eq in E. subst. exists t. reflexivity.
    + intros [t E]. assert (b = a /\ s = p ++ t) as [-> ->] by (apply cons_inv; exact E). split; [apply Ascii.eqb_refl|exists t; reflexivity].
Qed.
Lemma contains_spec p s : contains p s = true <-> exists u t, s = u ++ p ++ t.
Proof.
  induction s as [|b s IH]; cbn [contains]; rewrite orb_true_iff, has_prefix_spec.
  - split.
    + intros [[t E]|?]; [exists [], t; exact E|discriminate].
    + intros (u & t & E). left. destruct u; [exists t; exact E|discriminate].
  - rewrite IH. split.
    + intros [[t E]|(u & t & ->)]; [exists [], t; exact E|exists (b :: u), t; reflexivity].
    + intros (u & t & E). destruct u as [|x u]; [left; exists t; exact E|right]. exists u, t. apply cons_inv in E. tauto.
Qed.

(** ** Round trip *)
Lemma k_distinct : k_parent <> k_state /\ k_parent <> k_baggage /\ k_state <> k_baggage.
Proof. split_and!; apply (bool_decide_unpack _); vm_compute; exact I. Qed.
Lemma hget_set k v h : hget k (<[k := v]> h) = v.
Proof. unfold hget. rewrite lookup_insert. reflexivity. Qed.
Lemma hget_set_ne k k' v h : k <> k' -> hget k (<[k' := v]> h) = hget k h.
Proof. intros H. unfold hget. rewrite lookup_insert_ne by congruence. reflexivity. Qed.
Definition tp_text (t p : Z) (s : bool) : bytes :=
  B "00-" ++ fmt_hex 16 t ++ dash :: fmt_hex 8 p ++ dash :: fmt_hex 0 (if s then 1 else 0).
Lemma set_header_parent ord r h :
  hget k_parent (set_header ord r h) =
    match ti_trace r, ti_parent r with Some t, Some p => tp_text t p (ti_sampled r) | _, _ => hget k_parent h end.
Proof.
  destruct k_distinct as (K1 & K2 & K3). unfold set_header.
  destruct (ti_baggage r); [rewrite hget_set_ne by exact K2|];
  destruct (ti_trace r), (ti_parent r); try (rewrite hget_set; reflexivity); destruct (ti_sampled r); try reflexivity;
    rewrite hget_set_ne by exact K1; reflexivity.
Qed.
Lemma set_header_state ord r h :
  hget k_state (set_header ord r h) =
    match ti_trace r, ti_parent r with
    | Some t, Some p => hget k_state h
    | _, _ => if ti_sampled r then sampled_true else hget k_state h end.
Proof.
  destruct k_distinct as (K1 & K2 & K3). unfold set_header.
  destruct (ti_baggage r); [rewrite hget_set_ne by exact K3|];
  destruct (ti_trace r), (ti_parent r); try (rewrite hget_set_ne by congruence; reflexivity); destruct (ti_sampled r); try reflexivity;
    rewrite hget_set; reflexivity.
Qed.
Lemma set_header_baggage ord r h :
  hget k_baggage (set_header ord r h) =
    match ti_baggage r with Some b => join [comma] (map kv_text (ord (map_to_list b))) | None => hget k_baggage h end.
Proof.
  destruct k_distinct as (K1 & K2 & K3). unfold set_header.
  destruct (ti_baggage r); [rewrite hget_set; reflexivity|].
  destruct (ti_trace r), (ti_parent r); try (rewrite hget_set_ne by congruence; reflexivity); destruct (ti_sampled r); try reflexivity;
    rewrite hget_set_ne by congruence; reflexivity.
Qed.
Lemma tp_text_ok t p s : plain_id t -> plain_id p -> traceparent (tp_text t p s) t p (if s then 1 else 0).
Proof.
  intros Ht Hp. exists (B "00"), (fmt_hex 16 t), (fmt_hex 8 p), (fmt_hex 0 (if s then 1 else 0)).
  assert (Hs : plain_id (if s then 1 else 0)) by (destruct s; split; lia).
  split; [reflexivity|]. split; [|split; [apply fmt_hex_id, Ht|split; [apply fmt_hex_id, Hp|]]].
  - apply hex_to_uint64_spec. vm_compute. reflexivity.
  - exists (if s then 1 else 0). split; [apply fmt_hex_num, Hs|]. split; [destruct s; lia|reflexivity].
Qed.
Lemma round_trip_ids ord r h allowed t p : ti_trace r = Some t -> ti_parent r = Some p -> plain_id t -> plain_id p ->
  let r' := info_from_header (set_header ord r h) allowed in
  ti_trace r' = Some t /\ ti_parent r' = Some p /\ ti_sampled r' = ti_sampled r.
Proof.
  intros Et Ep Ht Hp r'. pose proof (set_header_parent ord r h) as E. rewrite Et, Ep in E.
  pose proof (tp_text_ok t p (ti_sampled r) Ht Hp) as T. rewrite <- E in T.
  subst r'. rewrite (info_traceparent _ allowed _ _ _ T). cbn. split_and!; auto. destruct (ti_sampled r); reflexivity.
Qed.
Lemma round_trip_no_ids ord r h allowed : ti_trace r = None \/ ti_parent r = None -> clean_header h ->
  info_from_header (set_header ord r h) allowed = TI None None (ti_sampled r) None.
Proof.
  intros Hn (C1 & C2 & _). unfold info_from_header. rewrite set_header_parent, set_header_state.
  assert (P : hget k_parent h = []) by exact (f_equal (default []) C1).
  assert (Q : hget k_state h = []) by exact (f_equal (default []) C2).
  assert (X : match ti_trace r, ti_parent r with Some t, Some p => tp_text t p (ti_sampled r) | _, _ => hget k_parent h end = []).
  { destruct (ti_trace r), (ti_parent r); auto. destruct Hn; discriminate. }
  rewrite X.
  assert (Y : match ti_trace r, ti_parent r with Some _, Some _ => hget k_state h | _, _ => if ti_sampled r then sampled_true else hget k_state h end =
      if ti_sampled r then sampled_true else []).
  { rewrite Q. destruct (ti_trace r), (ti_parent r); auto. destruct Hn; discriminate. }
  rewrite Y. destruct (ti_sampled r); reflexivity.
Qed.
(** Negative ids: the text has a fifth field. *)
Lemma split_count c s : length (split c s) = S (count_occ Ascii.ascii_dec s c).
Proof.
  induction s as [|a s IH]; [reflexivity|]. cbn [split count_occ]. destruct (Ascii.eqb_spec a c) as [->|Hne].
  - destruct (Ascii.ascii_dec c c); [|contradiction]. cbn [length]. rewrite IH. reflexivity.
  - destruct (Ascii.ascii_dec a c); [contradiction|]. rewrite <- IH. destruct (split c s) eqn:E; [destruct (split_nonnil c s E)|]. reflexivity.
Qed.
Lemma fmt_hex_neg w v : v < 0 -> (0 < count_occ Ascii.ascii_dec (fmt_hex w v) dash)%nat.
Proof. intros H. unfold fmt_hex. destruct (Z.ltb_spec v 0); [|lia]. cbn. lia. Qed.
Lemma round_trip_negative ord r h allowed t p : ti_trace r = Some t -> ti_parent r = Some p -> t < 0 \/ p < 0 ->
  info_from_header (set_header ord r h) allowed = ti_none.
Proof.
  intros Et Ep Hneg. unfold info_from_header. rewrite set_header_parent, Et, Ep.
  assert (L : (4 < length (split dash (tp_text t p (ti_sampled r))))%nat).
  { rewrite split_count. unfold tp_text. rewrite !count_occ_app. cbn [count_occ]. rewrite count_occ_app. cbn [count_occ].
    destruct (Ascii.ascii_dec dash dash); [|contradiction]. change (count_occ Ascii.ascii_dec (B "00-") dash) with 1%nat.
    destruct Hneg as [H|H]; [pose proof (fmt_hex_neg 16 t H)|pose proof (fmt_hex_neg 8 p H)]; lia. }
  destruct (tp_text t p (ti_sampled r)) as [|x tp]; [cbn in L; lia|].
  destruct (split dash (x :: tp)) as [|a [|b [|c [|d [|e l]]]]]; cbn [length] in L; (lia || reflexivity).
Qed.

(** ** Baggage *)
Lemma cut_spec f k v : cut equals f = Some (k, v) <-> kv_field f k v.
Proof.
  unfold cut, kv_field. split.
  - intros H. destruct (decide (equals ∈ f)) as [Hi|Hi].
    + destruct (cut_first equals f Hi) as (p & t & -> & Hp). rewrite (index_byte_app equals p t Hp) in H.
      assert (E : (take (length p) (p ++ equals :: t), drop (S (length p)) (p ++ equals :: t)) = (k, v)) by congruence.
      rewrite take_app, (drop_app_ge p) in E by lia. replace (S (length p) - length p)%nat with 1%nat in E by lia.
      apply pair_equal_spec in E as [<- <-]. split; [exact Hp|reflexivity].
    + rewrite (index_byte_none equals f Hi) in H. discriminate.
  - intros [Hk ->]. rewrite (index_byte_app equals k v Hk), take_app, (drop_app_ge k) by lia.
    replace (S (length k) - length k)%nat with 1%nat by lia. reflexivity.
Qed.
Lemma kv_field_det f k v k' v' : kv_field f k v -> kv_field f k' v' -> k = k' /\ v = v'.
Proof. intros H H'. apply cut_spec in H, H'. rewrite H in H'. split; congruence. Qed.
Lemma allowed_spec key allowed : List.existsb (beqb key) allowed = true <-> key ∈ allowed.
Proof.
  rewrite existsb_exists. split.
  - intros (x & Hx & E). unfold beqb in E. apply bool_decide_eq_true in E. subst. apply elem_of_list_In, Hx.
  - intros H. exists key. split; [apply elem_of_list_In, H|]. unfold beqb. apply bool_decide_eq_true. reflexivity.
Qed.
(** What the loop has imported after the fields [l]. *)
Lemma import_fold allowed l k v :
  fold_left (import_kv allowed) l ∅ !! k = Some v <->
  k ∈ allowed /\ exists pre f post, l = pre ++ f :: post /\ kv_field f k v /\ forall g w, g ∈ post -> ~ kv_field g k w.
Proof.
  induction l as [|f l IH] using rev_ind.
  - cbn. rewrite lookup_empty. split; [discriminate|]. intros (_ & pre & f & post & E & _). destruct pre; discriminate.
  - rewrite fold_left_app. cbn [fold_left]. set (m := fold_left (import_kv allowed) l ∅) in *.
    assert (Keep : (forall w, ~ (k ∈ allowed /\ kv_field f k w)) -> import_kv allowed m f !! k = m !! k).
    { intros Hno. unfold import_kv. destruct (cut equals f) as [[k' v']|] eqn:C; [|reflexivity].
      destruct (List.existsb (beqb k') allowed) eqn:A; [|reflexivity]. apply allowed_spec in A. apply cut_spec in C.
      apply lookup_insert_ne. intros ->. exact (Hno v' (conj A C)). }
    assert (Hcase : (exists w, k ∈ allowed /\ kv_field f k w) \/ forall w, ~ (k ∈ allowed /\ kv_field f k w)).
    { destruct (decide (k ∈ allowed)) as [Ha|Ha]; [|right; tauto]. destruct (cut equals f) as [[k' v']|] eqn:C.
      - apply cut_spec in C. destruct (decide (k' = k)) as [->|Hne]; [left; exists v'; auto|].
        right. intros w [_ Hw]. destruct (kv_field_det _ _ _ _ _ C Hw). congruence.
      - right. intros w [_ Hw]. apply cut_spec in Hw. congruence. }
    destruct Hcase as [(w & Ha & Hw)|Hno].
    + assert (E : import_kv allowed m f !! k = Some w).
      { unfold import_kv. rewrite (proj2 (cut_spec f k w) Hw), (proj2 (allowed_spec k allowed) Ha). apply lookup_insert. }
      rewrite E. split.
      * intros H. assert (v = w) by congruence. subst w. split; [exact Ha|]. exists l, f, []. split; [reflexivity|]. split; [exact Hw|].
        intros g x Hg. apply elem_of_nil in Hg. destruct Hg.
      * intros (_ & pre & g & post & El & Hg & Hpost). destruct post as [|q post _] using rev_ind.
        -- apply app_inj_tail in El as [_ <-]. destruct (kv_field_det _ _ _ _ _ Hg Hw) as [_ ->]. reflexivity.
        -- rewrite app_comm_cons, app_assoc in El. apply app_inj_tail in El as [_ <-].
           destruct (Hpost f w); [|exact Hw]. apply elem_of_app. right. apply elem_of_list_singleton. reflexivity.
    + rewrite (Keep Hno), IH. split.
      * intros (Ha & pre & g & post & -> & Hg & Hpost). split; [exact Ha|]. exists pre, g, (post ++ [f]).
        split; [rewrite <- app_assoc; reflexivity|]. split; [exact Hg|]. intros q x Hq. apply elem_of_app in Hq as [Hq|Hq]; [apply Hpost, Hq|].
        apply elem_of_list_singleton in Hq. subst q. intros Hx. exact (Hno x (conj Ha Hx)).
      * intros (Ha & pre & g & post & El & Hg & Hpost). split; [exact Ha|]. destruct post as [|q post _] using rev_ind.
        -- apply app_inj_tail in El as [_ <-]. destruct (Hno v (conj Ha Hg)).
        -- rewrite app_comm_cons, app_assoc in El. apply app_inj_tail in El as [-> _]. exists pre, g, post. split; [reflexivity|]. split; [exact Hg|].
           intros x y Hx. apply Hpost. apply elem_of_app. left. exact Hx.
Qed.
Lemma fields_split s l : fields s l <-> split comma s = l.
Proof.
  split.
  - intros (Hne & Hf & ->). apply split_of_join; assumption.
  - intros <-. split; [apply split_nonnil|]. split; [apply split_free|symmetry; apply split_join].
Qed.
Lemma import_baggage_fold allowed s : import_baggage allowed s = fold_left (import_kv allowed) (split comma s) ∅.
Proof. destruct s; reflexivity. Qed.
Lemma import_baggage_spec allowed s l k v : fields s l ->
  (import_baggage allowed s !! k = Some v <->
   k ∈ allowed /\ exists pre f post, l = pre ++ f :: post /\ kv_field f k v /\ forall g w, g ∈ post -> ~ kv_field g k w).
Proof. intros H. apply fields_split in H. rewrite import_baggage_fold, H. apply import_fold. Qed.
Lemma baggage_allowed h allowed b k v : ti_baggage (info_from_header h allowed) = Some b -> b !! k = Some v -> k ∈ allowed.
Proof.
  intros E H. destruct (info_cases h allowed) as [(t & p & f & X)|[X|[_ X]]].
  - rewrite (info_traceparent h allowed t p f X) in E. cbn in E. assert (b = import_baggage allowed (hget k_baggage h)) by congruence. subst b.
    rewrite import_baggage_fold in H. apply import_fold in H. tauto.
  - rewrite X in E. discriminate.
  - rewrite X in E. discriminate.
Qed.
Lemma baggage_read h allowed t p flags l : traceparent (hget k_parent h) t p flags -> fields (hget k_baggage h) l ->
  exists b, ti_baggage (info_from_header h allowed) = Some b /\
    forall k v, b !! k = Some v <->
      k ∈ allowed /\ exists pre f post, l = pre ++ f :: post /\ kv_field f k v /\ forall g w, g ∈ post -> ~ kv_field g k w.
Proof.
  intros T F. rewrite (info_traceparent h allowed t p flags T). exists (import_baggage allowed (hget k_baggage h)). split; [reflexivity|].
  intros k v. apply import_baggage_spec, F.
Qed.
Lemma round_trip_baggage ord r h allowed t p b : any_order ord ->
  ti_trace r = Some t -> ti_parent r = Some p -> plain_id t -> plain_id p -> ti_baggage r = Some b -> plain_baggage b ->
  exists b', ti_baggage (info_from_header (set_header ord r h) allowed) = Some b' /\
    forall k, b' !! k = if decide (k ∈ allowed) then b !! k else None.
Proof.
  intros Ho Et Ep Ht Hp Eb Hb. pose proof (set_header_parent ord r h) as E. rewrite Et, Ep in E.
  pose proof (tp_text_ok t p (ti_sampled r) Ht Hp) as T. rewrite <- E in T.
  rewrite (info_traceparent _ allowed _ _ _ T). cbn [ti_baggage]. eexists. split; [reflexivity|]. intros k.
  rewrite set_header_baggage, Eb. set (l := ord (map_to_list b)).
  assert (Pl : Permutation l (map_to_list b)) by apply Ho.
  assert (Hl : forall x y, (x, y) ∈ l <-> b !! x = Some y) by (intros x y; rewrite Pl; apply elem_of_map_to_list).
  assert (Hplain : Forall (fun f => comma ∉ f) (map kv_text l)).
  { apply Forall_forall. intros f Hf. apply elem_of_list_fmap in Hf as ([x y] & -> & Hxy). apply Hl, Hb in Hxy as (H1 & H2 & H3).
    unfold kv_text. cbn. rewrite elem_of_app, elem_of_cons. intros [X|[X|X]]; [contradiction|discriminate|contradiction]. }
  assert (Hkv : forall x y k v, (x, y) ∈ l -> kv_field (kv_text (x, y)) k v <-> k = x /\ v = y).
  { intros x y k0 v Hxy. apply Hl, Hb in Hxy as (_ & H2 & _). split; [|intros [-> ->]; split; [exact H2|reflexivity]].
    intros H. destruct (kv_field_det (kv_text (x, y)) k0 v x y H); [split; [exact H2|reflexivity]|auto]. }
  assert (Hval : forall v, import_baggage allowed (join [comma] (map kv_text l)) !! k = Some v <-> k ∈ allowed /\ b !! k = Some v).
  { intros v. destruct l as [|kv0 l0] eqn:El.
    - change (import_baggage allowed (join [comma] (map kv_text []))) with (∅ : gmap bytes bytes). rewrite lookup_empty. split; [discriminate|].
      intros [_ H]. apply Hl in H. apply elem_of_nil in H. destruct H.
    - rewrite <- El in *. assert (Hf : fields (join [comma] (map kv_text l)) (map kv_text l)).
      { split; [rewrite El; discriminate|]. split; [exact Hplain|reflexivity]. }
      rewrite (import_baggage_spec allowed _ _ k v Hf). split.
      + intros (Ha & pre & f & post & Es & Hkf & _). split; [exact Ha|].
        assert (Hfin : f ∈ map kv_text l) by (rewrite Es; apply elem_of_app; right; apply elem_of_cons; auto).
        apply elem_of_list_fmap in Hfin as ([x y] & -> & Hxy). apply (Hkv x y k v Hxy) in Hkf as [-> ->]. apply Hl, Hxy.
      + intros [Ha Hbk]. split; [exact Ha|]. apply Hl in Hbk. apply elem_of_list_split in Hbk as (pre & post & Es).
        exists (map kv_text pre), (kv_text (k, v)), (map kv_text post). split; [rewrite Es, map_app; reflexivity|]. split.
        * apply Hkv; [rewrite Es; apply elem_of_app; right; apply elem_of_cons; auto|auto].
        * intros g w Hg Hkg. apply elem_of_list_fmap in Hg as ([x y] & -> & Hxy).
          assert (Hin : (x, y) ∈ l) by (rewrite Es; apply elem_of_app; right; apply elem_of_cons; auto).
          apply (Hkv x y k w Hin) in Hkg as [<- <-].
          assert (ND : NoDup (map fst l)) by (rewrite Pl; apply NoDup_fst_map_to_list).
          rewrite Es, map_app in ND. cbn [map fst] in ND. apply NoDup_app in ND as (_ & _ & ND). apply NoDup_cons in ND as [ND _].
          apply ND. apply elem_of_list_fmap. exists (k, w). auto. }
  destruct (import_baggage allowed (join [comma] (map kv_text l)) !! k) as [v|] eqn:Ev.
  - destruct (proj1 (Hval v) eq_refl) as [Ha Hv]. rewrite decide_True by exact Ha. symmetry. exact Hv.
  - destruct (decide (k ∈ allowed)) as [Ha|Ha]; [|reflexivity]. destruct (b !! k) as [v|] eqn:Ebk; [|reflexivity].
    pose proof (proj2 (Hval v) (conj Ha eq_refl)). discriminate.
Qed.

(** ** The response observer *)
Section writer.
  Context {W A : Type} (raw : wcall -> W -> W * A) (impl : iface -> bool).
  Lemma wrapped_transparent h : only_flusher h -> forall sc w log,
    snd (run_wrapped raw impl h sc w log) = run_direct raw impl h w log.
  Proof.
    induction 1 as [| |c k Hk IH|yes no Hy IHy Hn IHn|k Hk IH]; intros sc w log; cbn [run_wrapped run_direct]; [reflexivity..| | |].
    - destruct (raw c w) as [w' a]. apply IH.
    - unfold wrapped_impl. destruct (impl IFlusher); [|apply IHn]. destruct (raw WFlush w) as [w' a]. apply IHy.
    - apply IH.
  Qed.
  (** The observer's code as a function of the calls the writer received. *)
  Lemma wrapped_code h : forall sc w log,
    exists l, r_calls (snd (run_wrapped raw impl h sc w log)) = log ++ l /\ fst (run_wrapped raw impl h sc w log) = fold_left (fun s c => observe c s) l sc.
  Proof.
    induction h as [| |c k IH|yes IHy no IHn|i k IH]; intros sc w log; cbn [run_wrapped].
    - exists []. rewrite app_nil_r. auto.
    - exists []. rewrite app_nil_r. auto.
    - destruct (raw c w) as [w' a]. destruct (IH a (observe c sc) w' (log ++ [c])) as (l & E1 & E2).
      exists (c :: l). rewrite E1, E2, <- app_assoc. auto.
    - destruct (wrapped_impl impl IFlusher); [|apply IHn]. destruct (raw WFlush w) as [w' a].
      destruct (IHy a sc w' (log ++ [WFlush])) as (l & E1 & E2). exists (WFlush :: l). rewrite E1, E2, <- app_assoc. auto.
    - apply IH.
  Qed.
End writer.
Definition recorded (l : list wcall) : Z := status_code (fold_left (fun s c => observe c s) l 0).
Lemma observe_headers l sc : Forall header_access l -> fold_left (fun s c => observe c s) l sc = sc.
Proof. induction 1 as [|c l Hc _ IH]; [reflexivity|]. cbn [fold_left]. destruct c; try contradiction; exact IH. Qed.
Lemma observe_no_code l sc : Forall not_code l -> sc <> 0 -> fold_left (fun s c => observe c s) l sc = sc.
Proof.
  intros H Hsc. induction H as [|c l Hc _ IH]; [reflexivity|]. cbn [fold_left]. destruct c; cbn [observe not_code] in *; try contradiction; auto.
  destruct (Z.eqb_spec sc 0); [contradiction|exact IH].
Qed.
Lemma observe_no_code0 l : Forall not_code l -> fold_left (fun s c => observe c s) l 0 = 0 \/ fold_left (fun s c => observe c s) l 0 = 200.
Proof.
  induction 1 as [|c l Hc H IH]; [auto|]. cbn [fold_left]. destruct c; cbn [observe not_code] in *; try contradiction; auto.
  right. apply observe_no_code; [exact H|discriminate].
Qed.
Lemma wire_headers pre l : Forall header_access pre -> wire_status (pre ++ l) = wire_status l.
Proof. induction 1 as [|c pre Hc _ IH]; [reflexivity|]. cbn [app wire_status]. destruct c; try contradiction; exact IH. Qed.
Lemma wire_no_code l : Forall not_code l -> wire_status l = 200.
Proof. induction 1 as [|c l Hc _ IH]; [reflexivity|]. cbn [wire_status]. destruct c; try contradiction; auto. Qed.
Lemma proper_recorded l : proper l -> recorded l = wire_status l.
Proof.
  unfold recorded. intros [H|(pre & c & post & -> & Hpre & Hpost & Hc & Hi)].
  - rewrite (wire_no_code l H). destruct (observe_no_code0 l H) as [->| ->]; reflexivity.
  - rewrite fold_left_app, (observe_headers pre 0 Hpre). cbn [fold_left observe]. rewrite (observe_no_code post c Hpost) by lia.
    rewrite (wire_headers pre _ Hpre). cbn [wire_status]. rewrite Hi. unfold status_code. destruct (Z.eqb_spec c 0); lia.
Qed.

(** ** The server *)
Section server.
  Context {W A : Type} (raw : wcall -> W -> W * A) (impl : iface -> bool).
  Lemma serve_span hd allowed nid sid uri ord h w :
    sv_span (serve raw impl hd allowed nid sid uri ord h w) =
    HSpan (default nid (ti_trace (info_from_header hd allowed))) (ti_sampled (info_from_header hd allowed)) sid
          (Some (default 0 (ti_parent (info_from_header hd allowed)))).
  Proof. unfold serve. destruct (run_wrapped _ _ _ _ _ _) as [sc r]. reflexivity. Qed.
  Definition own_calls hd allowed (nid sid : Z) : list wcall :=
    match ti_parent (info_from_header hd allowed) with
    | None => if ti_sampled (info_from_header hd allowed)
              then [WSet k_trace_id (fmt_hex 0 (default nid (ti_trace (info_from_header hd allowed)))); WSet k_child_id (fmt_hex 0 sid)] else []
    | Some _ => []
    end.
  Lemma own_headers hd allowed nid sid : Forall header_access (own_calls hd allowed nid sid).
  Proof. unfold own_calls. destruct (ti_parent _); [constructor|]. destruct (ti_sampled _); repeat constructor. Qed.
  Lemma serve_run hd allowed nid sid uri ord h w : only_flusher h ->
    sv_run (serve raw impl hd allowed nid sid uri ord h w) =
    run_direct raw impl h (fold_left (fun w c => fst (raw c w)) (own_calls hd allowed nid sid) w) (own_calls hd allowed nid sid).
  Proof.
    intros H. unfold serve. fold (own_calls hd allowed nid sid).
    rewrite <- (wrapped_transparent raw impl h H 0). destruct (run_wrapped _ _ _ _ _ _) as [sc r]. reflexivity.
  Qed.
  Lemma serve_calls hd allowed nid sid uri ord h w :
    exists l, r_calls (sv_run (serve raw impl hd allowed nid sid uri ord h w)) = own_calls hd allowed nid sid ++ l.
  Proof.
    unfold serve. fold (own_calls hd allowed nid sid).
    destruct (wrapped_code raw impl h 0 (fold_left (fun w c => fst (raw c w)) (own_calls hd allowed nid sid) w) (own_calls hd allowed nid sid)) as (l & E1 & E2).
    destruct (run_wrapped _ _ _ _ _ _) as [sc r]. exists l. exact E1.
  Qed.
  Lemma serve_annotations hd allowed nid sid uri ord h w :
    let sv := serve raw impl hd allowed nid sid uri ord h w in
    sv_annotations sv =
      map (fun kv => (fst kv, AText (snd kv))) (ord (map_to_list (default ∅ (ti_baggage (info_from_header hd allowed))))) ++
      (B "http.uri", AText uri) ::
      if r_returned (sv_run sv) then [(B "http.responsecode", ACode (recorded (r_calls (sv_run sv))))] else [].
  Proof.
    cbn zeta. unfold serve. fold (own_calls hd allowed nid sid).
    destruct (wrapped_code raw impl h 0 (fold_left (fun w c => fst (raw c w)) (own_calls hd allowed nid sid) w) (own_calls hd allowed nid sid)) as (l & E1 & E2).
    destruct (run_wrapped _ _ _ _ _ _) as [sc r]. cbn [sv_annotations sv_run fst snd] in *.
    unfold recorded. rewrite E1, fold_left_app, (observe_headers _ 0 (own_headers hd allowed nid sid)), <- E2.
    destruct (r_returned r); rewrite <- ?app_assoc; reflexivity.
  Qed.
  Lemma serve_annotations_allowed hd allowed nid sid uri ord h w k v : any_order ord ->
    (k, v) ∈ sv_annotations (serve raw impl hd allowed nid sid uri ord h w) ->
    k ∈ allowed \/ k = B "http.uri" \/ k = B "http.responsecode".
  Proof.
    intros Ho H. rewrite serve_annotations in H. apply elem_of_app in H as [H|H].
    - apply elem_of_list_fmap in H as ([x y] & E & H). cbn in E. assert (k = x) by congruence. subst x. clear E. rewrite (Ho _) in H.
      apply elem_of_map_to_list in H. destruct (ti_baggage (info_from_header hd allowed)) as [b|] eqn:Eb.
      + left. exact (baggage_allowed hd allowed b k y Eb H).
      + cbn in H. rewrite lookup_empty in H. discriminate.
    - right. apply elem_of_cons in H as [H|H]; [left; congruence|]. destruct (r_returned _).
      + apply elem_of_list_singleton in H. right. congruence.
      + apply elem_of_nil in H. destruct H.
  Qed.
  Lemma serve_code hd allowed nid sid uri ord h w :
    let sv := serve raw impl hd allowed nid sid uri ord h w in
    r_returned (sv_run sv) = true -> proper (r_calls (sv_run sv)) ->
    last (sv_annotations sv) = Some (B "http.responsecode", ACode (wire_status (r_calls (sv_run sv)))).
  Proof.
    cbn zeta. intros Hr Hp. rewrite serve_annotations, Hr, (proper_recorded _ Hp).
    match goal with |- last (?x ++ ?a :: [?b]) = _ => replace (x ++ a :: [b]) with ((x ++ [a]) ++ [b]) by (rewrite <- app_assoc; reflexivity) end.
    apply last_snoc.
  Qed.
  (** An orphan sampling request learns the ids. *)
  Lemma serve_orphan hd allowed nid sid uri ord h w :
    hget k_parent hd = [] -> (exists u t, hget k_state hd = u ++ sampled_true ++ t) ->
    let sv := serve raw impl hd allowed nid sid uri ord h w in
    sv_span sv = HSpan nid true sid (Some 0) /\
    exists l, r_calls (sv_run sv) = WSet k_trace_id (fmt_hex 0 nid) :: WSet k_child_id (fmt_hex 0 sid) :: l.
  Proof.
    intros Hp Hs sv. assert (E : info_from_header hd allowed = TI None None true None).
    { unfold info_from_header. rewrite Hp. apply contains_spec in Hs. rewrite Hs. reflexivity. }
    split; [subst sv; rewrite serve_span, E; reflexivity|].
    destruct (serve_calls hd allowed nid sid uri ord h w) as [l El]. exists l. subst sv. rewrite El. unfold own_calls. rewrite E. reflexivity.
  Qed.
End server.

(** ** Propagation *)
Lemma propagate {W A} (raw : wcall -> W -> W * A) impl s ord h allowed nid sid uri ord' hd w :
  hs_sampled s = true -> plain_id (hs_trace s) -> plain_id (hs_id s) -> (forall p, hs_parent s = Some p -> plain_id p) ->
  sv_span (serve raw impl (trace_request s ord h) allowed nid sid uri ord' hd w) =
  HSpan (hs_trace s) true sid (Some (default (hs_id s) (hs_parent s))).
Proof.
  intros Hs Ht Hi Hp. rewrite serve_span. unfold trace_request.
  destruct (round_trip_ids ord (info_from_span s) h allowed (hs_trace s) (default (hs_id s) (hs_parent s))) as (E1 & E2 & E3).
  - unfold info_from_span. rewrite Hs. reflexivity.
  - unfold info_from_span. rewrite Hs. reflexivity.
  - exact Ht.
  - destruct (hs_parent s) as [p|]; [apply Hp; reflexivity|exact Hi].
  - rewrite E1, E2, E3. unfold info_from_span. rewrite Hs. reflexivity.
Qed.
Lemma propagate_unsampled {W A} (raw : wcall -> W -> W * A) impl s ord h allowed nid sid uri ord' hd w :
  hs_sampled s = false -> clean_header h ->
  sv_span (serve raw impl (trace_request s ord h) allowed nid sid uri ord' hd w) = HSpan nid false sid (Some 0).
Proof.
  intros Hs Hc. rewrite serve_span. unfold trace_request. rewrite round_trip_no_ids; [|left; unfold info_from_span; rewrite Hs; reflexivity|exact Hc].
  cbn [ti_trace ti_parent ti_sampled default]. unfold info_from_span. rewrite Hs. reflexivity.
Qed.
Lemma journey_trace l : forall s,
  hs_sampled s = true -> plain_id (hs_trace s) -> plain_id (hs_id s) -> (forall p, hs_parent s = Some p -> plain_id p) ->
  Forall (fun x => plain_id (hop_id x)) l ->
  hs_trace (journey s l) = hs_trace s /\ hs_sampled (journey s l) = true.
Proof.
  induction l as [|x l IH]; intros s Hs Ht Hi Hp Hl; [auto|]. apply Forall_cons in Hl as [Hx Hl]. unfold journey. cbn [fold_left]. fold (journey (hop_span s x) l).
  assert (X : hs_trace (hop_span s x) = hs_trace s /\ hs_sampled (hop_span s x) = true /\ hs_id (hop_span s x) = hop_id x /\
    exists p, hs_parent (hop_span s x) = Some p /\ plain_id p).
  { destruct x as [id|h ord allowed nid id]; cbn [hop_span hop_id].
    - cbn. split_and!; auto. exists (hs_id s). auto.
    - unfold remote_span. rewrite (propagate _ _ s ord h allowed nid id [] ord silent tt Hs Ht Hi Hp). cbn. split_and!; auto.
      eexists. split; [reflexivity|]. destruct (hs_parent s) as [p|]; [apply Hp; reflexivity|exact Hi]. }
  destruct X as (X1 & X2 & X3 & p & X4 & X5). destruct (IH (hop_span s x)) as [Y1 Y2]; auto.
  - rewrite X1. exact Ht.
  - rewrite X3. exact Hx.
  - intros q Hq. rewrite X4 in Hq. assert (p = q) by congruence. subst. exact X5.
  - rewrite Y1, X1. auto.
Qed.
Lemma wrapped_status {W A} (raw : wcall -> W -> W * A) impl h w :
  let '(sc, r) := run_wrapped raw impl h 0 w [] in
  proper (r_calls r) -> status_code sc = wire_status (r_calls r).
Proof.
  destruct (wrapped_code raw impl h 0 w []) as (l & E1 & E2). destruct (run_wrapped raw impl h 0 w []) as [sc r]. cbn [fst snd app] in *.
  rewrite E1. intros H. rewrite <- (proper_recorded l H). unfold recorded. rewrite <- E2. reflexivity.
Qed.
