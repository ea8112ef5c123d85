(** Proofs for package environment. *)
From Verif Require Import Base BaseProofs Strings Fval StructModel CallersModel EnvModel EnvSpec.
Open Scope Z_scope.
Local Arguments B : simpl never.

(** ** Garbage collection pauses *)
Lemma gc_inv h : (0 < gc_num (snd (rt_run h)) <-> pauses h <> []) /\ 0 <= gc_num (snd (rt_run h)) /\
  hd_error (gc_pause (snd (rt_run h))) = latest h /\ rt_last (fst (rt_run h)) = 0.
Proof.
  unfold rt_run, pauses, latest. induction h as [|e h IH] using rev_ind.
  - cbn. split_and!; try reflexivity; try lia. split; [lia|contradiction].
  - rewrite fold_left_app, omap_app. cbn [fold_left]. destruct (fold_left rt_step h (rt_new, gc_none)) as [s g].
    destruct IH as (I1 & I2 & I3 & I4). cbn [fst snd] in *. destruct e as [p|]; cbn [rt_step fst snd omap list_omap].
    + rewrite last_snoc. cbn. split_and!; try reflexivity; try lia; try exact I4.
      split; [|lia]. intros _ H. destruct (omap _ h); discriminate.
    + rewrite app_nil_r. split_and!; auto. unfold rt_stats. destruct (_ && _); [|exact I4]. destruct (gc_pause g); exact I4.
Qed.
Lemma seen_at_app h e i : (i < length h)%nat -> seen_at (h ++ [e]) i = seen_at h i.
Proof. intros H. unfold seen_at. rewrite lookup_app_l by exact H. rewrite take_app_le by lia. reflexivity. Qed.
Lemma rt_inserted_spec h : rt_inserted (fst (rt_run h)) = omap (seen_at h) (seq 0 (length h)).
Proof.
  induction h as [|e h IH] using rev_ind; [reflexivity|].
  rewrite app_length. cbn [length]. rewrite seq_app, omap_app. cbn [seq Nat.add].
  assert (E : omap (seen_at (h ++ [e])) (seq 0 (length h)) = omap (seen_at h) (seq 0 (length h))).
  { assert (Hs : forall i, i ∈ seq 0 (length h) -> seen_at (h ++ [e]) i = seen_at h i) by (intros i Hi; apply seen_at_app; apply elem_of_seq in Hi; lia).
    revert Hs. generalize (seq 0 (length h)). intros l. induction l as [|i l IHl]; intros Hs; [reflexivity|]. cbn [omap list_omap].
    rewrite (Hs i) by left. fold (omap (seen_at (h ++ [e])) l) (omap (seen_at h) l). rewrite IHl; [reflexivity|]. intros j Hj. apply Hs. right. exact Hj. }
  rewrite E, <- IH. destruct (gc_inv h) as (G1 & G2 & G3 & G4). unfold rt_run in *. rewrite fold_left_app. cbn [fold_left].
  destruct (fold_left rt_step h (rt_new, gc_none)) as [s g]. cbn [fst snd] in *. cbn [omap list_omap].
  replace (seen_at (h ++ [e]) (length h)) with (match e with EvStats => latest h | EvGC _ => None end).
  2:{ unfold seen_at. rewrite lookup_app_r, Nat.sub_diag by lia. cbn [lookup list_lookup]. destruct e; [reflexivity|].
      rewrite take_app. reflexivity. }
  destruct e as [p|]; cbn [rt_step fst snd]; [cbn; rewrite app_nil_r; reflexivity|].
  unfold rt_stats. rewrite G4. destruct (gc_pause g) as [|p ps] eqn:Ep; cbn [hd_error] in G3.
  - rewrite <- G3, Bool.andb_comm. cbn. rewrite app_nil_r. reflexivity.
  - rewrite <- G3. assert (0 < gc_num g) as Hg.
    { apply G1. intros H. unfold latest in G3. unfold pauses in H. rewrite H in G3. discriminate. }
    destruct (Z.eqb_spec 0 (gc_num g)) as [|_]; [lia|]. cbn [negb andb]. destruct (Z.ltb_spec 0 (Z.of_nat (length (p :: ps)))) as [_|Hl]; [|cbn [length] in Hl; lia].
    reflexivity.
Qed.

(** ** The CRC *)
Lemma process_run_cached r h : process_run (Some r) h =
  map (fun x => (B "control", FInt 1) :: match r with Some v => [(B "crc", FInt v)] | None => [] end ++ [(B "uptime", FSeconds (snd x))]) h.
Proof. induction h as [|[read up] h IH]; [reflexivity|]. cbn. rewrite IH. reflexivity. Qed.

(** ** Scanning *)
Lemma all_ascii (P : ascii -> bool) : forallb (fun n => P (ascii_of_nat n)) (seq 0 256) = true -> forall c, P c = true.
Proof.
  intros H c. rewrite forallb_forall in H. rewrite <- (ascii_nat_embedding c). apply H. apply in_seq. split; [lia|]. apply nat_ascii_bounded.
Qed.
Lemma blank_space c : blank c <-> is_space c = true.
Proof.
  assert (H : bool_decide (blank c) = is_space c).
  { apply Bool.eqb_prop. revert c. unfold blank. apply all_ascii. vm_compute. reflexivity. }
  rewrite <- H. symmetry. apply bool_decide_eq_true.
Qed.
Lemma dec_digit c d : dec_char c d -> digit c = Some d.
Proof.
  intros [Hd H]. assert (Hc : forallb (fun n => match B "0123456789" !! n with Some c => bool_decide (digit c = Some (Z.of_nat n)) | None => true end) (seq 0 10) = true) by (vm_compute; reflexivity).
  rewrite forallb_forall in Hc. specialize (Hc (Z.to_nat d)). rewrite in_seq in Hc. specialize (Hc ltac:(lia)). rewrite H in Hc. apply bool_decide_eq_true in Hc. rewrite Hc. f_equal. lia.
Qed.
Lemma digit_not_space c d : digit c = Some d -> is_space c = false.
Proof.
  assert (H : (match digit c with Some _ => negb (is_space c) | None => true end) = true) by (revert c; apply all_ascii; vm_compute; reflexivity).
  intros E. rewrite E in H. apply Bool.negb_true_iff, H.
Qed.
Lemma digit_not_sign c d : digit c = Some d -> c <> minus /\ c <> plus.
Proof. intros E. split; intros ->; vm_compute in E; discriminate. Qed.
Lemma space_not_digit c : is_space c = true -> digit c = None.
Proof. intros H. destruct (digit c) as [d|] eqn:E; [|reflexivity]. rewrite (digit_not_space c d E) in H. discriminate. Qed.

Lemma digits_app s n : dec_num s n -> forall acc rest, line_end rest -> exists k, digits acc (s ++ rest) = (acc * 10 ^ k + n, rest) /\ 0 <= k.
Proof.
  intros H. cut (forall acc r, exists k, 0 <= k /\ digits acc (s ++ r) = digits (acc * 10 ^ k + n) r).
  { intros Hc acc rest Hr. destruct (Hc acc rest) as (k & Hk & E). exists k. split; [|exact Hk]. rewrite E. destruct rest as [|c rest]; [reflexivity|].
    cbn [digits]. cbn [line_end] in Hr. apply blank_space in Hr. rewrite (space_not_digit c Hr). reflexivity. }
  induction H as [c d Hc|s n c d Hs IH Hc]; intros acc r.
  - exists 1. split; [lia|]. cbn [app digits]. rewrite (dec_digit c d Hc). f_equal. lia.
  - destruct (IH acc (c :: r)) as (k & Hk & E). exists (k + 1). split; [lia|]. rewrite <- app_assoc. cbn [app]. rewrite E. cbn [digits]. rewrite (dec_digit c d Hc).
    f_equal. rewrite Z.pow_add_r by lia. lia.
Qed.
Lemma dec_num_hd s n : dec_num s n -> exists c s' d, s = c :: s' /\ digit c = Some d.
Proof.
  induction 1 as [c d Hc|s n c d Hs IH Hc]; [exists c, [], d; split; [reflexivity|exact (dec_digit c d Hc)]|].
  destruct IH as (c0 & s' & d0 & -> & E). exists c0, (s' ++ [c]), d0. split; [reflexivity|exact E].
Qed.
Lemma dec_num_nonneg s n : dec_num s n -> 0 <= n.
Proof. induction 1 as [c d Hc|s n c d Hs IH Hc]; [destruct Hc; lia|destruct Hc; lia]. Qed.
Lemma unsigned_num_text s n rest : dec_num s n -> line_end rest -> unsigned_num (s ++ rest) = Some (n, rest).
Proof.
  intros H Hr. destruct (dec_num_hd s n H) as (c & s' & d & E & Ed). destruct (digits_app s n H 0 rest Hr) as (k & E' & _).
  unfold unsigned_num. rewrite E in *. cbn [app]. rewrite Ed. change (c :: s' ++ rest) with ((c :: s') ++ rest). rewrite E'. reflexivity.
Qed.
Lemma skip_space_solid c s : is_space c = false -> skip_space (c :: s) = Some (c :: s).
Proof.
  intros H. unfold skip_space. cbn [drop_blanks]. rewrite H. cbn [andb]. destruct (Ascii.eqb_spec c newline) as [->|_]; [vm_compute in H; discriminate|reflexivity].
Qed.
Lemma take_word_app s rest : (forall c, c ∈ s -> ~ blank c) -> line_end rest -> take_word (s ++ rest) = (s, rest).
Proof.
  intros H Hr. induction s as [|c s IH]; cbn [app].
  - destruct rest as [|c rest]; [reflexivity|]. cbn [take_word]. cbn [line_end] in Hr. apply blank_space in Hr. rewrite Hr. reflexivity.
  - cbn [take_word]. assert (is_space c = false) as ->.
    { destruct (is_space c) eqn:E; [|reflexivity]. destruct (H c ltac:(left)). apply blank_space, E. }
    rewrite IH; [reflexivity|]. intros d Hd. apply H. right. exact Hd.
Qed.
Lemma text_solid v x t : field_text v x t -> exists c t', t = c :: t' /\ is_space c = false.
Proof.
  assert (Hb : forall c, ~ blank c -> is_space c = false).
  { intros c H. destruct (is_space c) eqn:E; [|reflexivity]. destruct H. apply blank_space, E. }
  intros [s n H _|s n H _|s n H _|s Hne H|c H].
  - destruct (dec_num_hd s n H) as (c & s' & d & -> & E). exists c, s'. split; [reflexivity|exact (digit_not_space c d E)].
  - exists "-"%char, s. split; reflexivity.
  - destruct (dec_num_hd s n H) as (c & s' & d & -> & E). exists c, s'. split; [reflexivity|exact (digit_not_space c d E)].
  - destruct s as [|c s]; [contradiction|]. exists c, s. split; [reflexivity|]. apply Hb, H. left.
  - exists c, []. split; [reflexivity|exact (Hb c H)].
Qed.
Lemma scan_one_text v x t rest : field_text v x t -> line_end rest -> scan_one v (t ++ rest) = Some (x, rest).
Proof.
  intros Ht Hr. destruct (text_solid v x t Ht) as (c & t' & E & Hc).
  destruct Ht as [s n H Hn|s n H Hn|s n H Hn|s Hne H|c' H]; unfold scan_one.
  - pose proof (unsigned_num_text s n rest H Hr) as U. destruct (dec_num_hd s n H) as (c1 & s1 & d & E1 & Ed).
    rewrite E in E1. injection E1 as <- <-. rewrite E in *. cbn [app] in *. rewrite (skip_space_solid c _ Hc).
    destruct (digit_not_sign c d Ed) as [N1 N2]. destruct (Ascii.eqb_spec c minus) as [|_]; [contradiction|]. destruct (Ascii.eqb_spec c plus) as [|_]; [contradiction|].
    rewrite U. cbv zeta. pose proof (dec_num_nonneg _ n H). destruct (Z.leb_spec (- 2 ^ 63) n) as [_|]; [|lia]. destruct (Z.ltb_spec n (2 ^ 63)) as [_|]; [|lia]. reflexivity.
  - cbn [app]. rewrite (skip_space_solid "-"%char _ eq_refl). change (Ascii.eqb "-" minus) with true. cbv iota.
    rewrite (unsigned_num_text s n rest H Hr). cbv zeta. pose proof (dec_num_nonneg _ n H).
    destruct (Z.leb_spec (- 2 ^ 63) (- n)) as [_|]; [|lia]. destruct (Z.ltb_spec (- n) (2 ^ 63)) as [_|]; [|lia]. reflexivity.
  - pose proof (unsigned_num_text s n rest H Hr) as U. rewrite E in *. cbn [app] in *. rewrite (skip_space_solid c _ Hc), U.
    destruct (Z.ltb_spec n (2 ^ 64)) as [_|]; [|lia]. reflexivity.
  - pose proof (take_word_app s rest H Hr) as W. rewrite E in *. cbn [app] in *. rewrite (skip_space_solid c _ Hc), W. reflexivity.
  - reflexivity.
Qed.
Lemma drop_blanks_solid c s : is_space c = false -> drop_blanks (c :: s) = c :: s.
Proof. intros H. cbn. rewrite H. reflexivity. Qed.

Lemma scan_rest_text vs : forall xs ts rest, fields_text vs xs ts -> line_end rest ->
  scan_rest vs (concat (map (fun t => " "%char :: t) ts) ++ rest) = Some xs.
Proof.
  induction vs as [|v vs IH]; intros xs ts rest (L1 & L2 & H) Hr.
  - destruct xs; [reflexivity|discriminate].
  - destruct xs as [|x xs]; [discriminate|]. destruct ts as [|t ts]; [discriminate|].
    assert (Ht : field_text v x t) by exact (H 0%nat v x t eq_refl eq_refl eq_refl).
    destruct (text_solid v x t Ht) as (c & t' & E & Hc).
    assert (Hf : fields_text vs xs ts).
    { split_and!; [injection L1 as L1; exact L1|injection L2 as L2; exact L2|]. intros i. exact (H (S i)). }
    cbn [map concat scan_rest]. cbn [app]. unfold fmt_space. change (is_space " " && negb (Ascii.eqb " " newline)) with true. cbv iota.
    rewrite <- app_assoc. rewrite E at 1. cbn [app]. rewrite (drop_blanks_solid c _ Hc).
    change (c :: t' ++ concat (map (fun t => " "%char :: t) ts) ++ rest) with ((c :: t') ++ concat (map (fun t => " "%char :: t) ts) ++ rest). rewrite <- E.
    rewrite (scan_one_text v x t _ Ht).
    + rewrite (IH xs ts rest Hf Hr). reflexivity.
    + destruct ts as [|t2 ts]; [exact Hr|]. cbn. apply blank_space. reflexivity.
Qed.
Lemma join_concat ts t : join (B " ") (t :: ts) = t ++ concat (map (fun t => " "%char :: t) ts).
Proof.
  revert t. induction ts as [|u ts IH]; intros t; [cbn; rewrite app_nil_r; reflexivity|]. change (join (B " ") (t :: u :: ts)) with (t ++ B " " ++ join (B " ") (u :: ts)).
  rewrite IH. reflexivity.
Qed.
Lemma scan_text vs xs ts rest : fields_text vs xs ts -> line_end rest -> scan vs (join (B " ") ts ++ rest) = Some xs.
Proof.
  intros (L1 & L2 & H) Hr. destruct vs as [|v vs].
  - destruct xs; [reflexivity|discriminate].
  - destruct xs as [|x xs]; [discriminate|]. destruct ts as [|t ts]; [discriminate|].
    assert (Ht : field_text v x t) by exact (H 0%nat v x t eq_refl eq_refl eq_refl).
    assert (Hf : fields_text vs xs ts).
    { split_and!; [injection L1 as L1; exact L1|injection L2 as L2; exact L2|]. intros i. exact (H (S i)). }
    rewrite join_concat, <- app_assoc. unfold scan. rewrite (scan_one_text v x t _ Ht).
    + rewrite (scan_rest_text vs xs ts rest Hf Hr). reflexivity.
    + destruct ts as [|t2 ts]; [exact Hr|]. cbn. apply blank_space. reflexivity.
Qed.

(** What is reported. *)
Lemma ignored_untagged n x : ignored (n, true, [], x) = false.
Proof. reflexivity. Qed.
Lemma fill_stats fields : forall xs, length xs = length fields ->
  struct_stats (VStruct (fill fields xs)) =
  (omap (fun p => match field_number (snd p) with Some z => Some (fst p, FInt z) | None => None end) (zip (map fst fields) xs), false).
Proof.
  induction fields as [|[n v] fields IH]; intros xs L; destruct xs as [|x xs]; try discriminate; [reflexivity|].
  injection L as L. specialize (IH xs L). cbn [fill zip map fst omap list_omap].
  change (struct_stats (VStruct ((n, true, [], value_gval x) :: fill fields xs))) with
    (match deref (value_gval x) with
     | None => ([], true)
     | Some d => then_report (if ignored (n, true, [], value_gval x) then ([], false)
         else match d with VStruct _ => under n (struct_stats (value_gval x)) | VNum y => ([(n, y)], false) | VBool b => ([(n, FBool b)], false) | _ => ([], false) end)
       (struct_stats (VStruct (fill fields xs)))
     end).
  rewrite ignored_untagged, IH. destruct x as [z|s|c]; reflexivity.
Qed.

(** A blank inside the second field of the format: Sscanf fails. *)
Lemma digits_suffix s : forall acc, exists p, s = p ++ snd (digits acc s) /\ forall c, c ∈ p -> digit c <> None.
Proof.
  induction s as [|c s IH]; intros acc; cbn [digits]; [exists []; split; [reflexivity|intros c H; inversion H]|].
  destruct (digit c) as [d|] eqn:E.
  - destruct (IH (10 * acc + d)) as (p & Es & Hp). exists (c :: p). split; [cbn; f_equal; exact Es|].
    intros x Hx. apply elem_of_cons in Hx as [->|Hx]; [congruence|exact (Hp x Hx)].
  - exists []. split; [reflexivity|intros x H; inversion H].
Qed.
Lemma unsigned_suffix s n r : unsigned_num s = Some (n, r) -> exists p, s = p ++ r /\ p <> [] /\ forall c, c ∈ p -> digit c <> None.
Proof.
  unfold unsigned_num. destruct s as [|c s]; [discriminate|]. destruct (digit c) as [d|] eqn:E; [|discriminate].
  intros H. cbn [digits] in H. rewrite E in H. destruct (digits_suffix s (10 * 0 + d)) as (p & Es & Hp).
  destruct (digits (10 * 0 + d) s) as [n' r']. apply Some_inj in H. injection H as -> ->. cbn [snd] in Es.
  exists (c :: p). split_and!; [cbn; f_equal; exact Es|discriminate|]. intros x Hx. apply elem_of_cons in Hx as [->|Hx]; [congruence|exact (Hp x Hx)].
Qed.
Lemma drop_blanks_suffix s : exists p, s = p ++ drop_blanks s /\ forall c, c ∈ p -> is_space c = true.
Proof.
  induction s as [|c s IH]; [exists []; split; [reflexivity|intros c H; inversion H]|]. cbn [drop_blanks].
  destruct (is_space c && negb (Ascii.eqb c newline)) eqn:E.
  - destruct IH as (p & Es & Hp). exists (c :: p). split; [cbn; f_equal; exact Es|]. apply Bool.andb_true_iff in E as [E _].
    intros x Hx. apply elem_of_cons in Hx as [->|Hx]; [exact E|exact (Hp x Hx)].
  - exists []. split; [reflexivity|intros x H; inversion H].
Qed.
Lemma skip_space_suffix s r : skip_space s = Some r -> exists p, s = p ++ r /\ forall c, c ∈ p -> is_space c = true.
Proof.
  unfold skip_space. destruct (drop_blanks_suffix s) as (p & Es & Hp). destruct (drop_blanks s) as [|c s'].
  - intros H. injection H as <-. exists p. auto.
  - destruct (Ascii.eqb c newline); [discriminate|]. intros H. injection H as <-. exists p. auto.
Qed.
Definition numeric (c : ascii) : bool := is_space c || (match digit c with Some _ => true | None => false end) || Ascii.eqb c minus || Ascii.eqb c plus.
Lemma scan_num_suffix v s x r : v = Vint \/ v = Vuint -> scan_one v s = Some (x, r) ->
  exists p, s = p ++ r /\ p <> [] /\ forall c, c ∈ p -> numeric c = true.
Proof.
  assert (Hd : forall c, digit c <> None -> numeric c = true).
  { intros c H. unfold numeric. destruct (digit c); [|contradiction]. rewrite Bool.orb_true_r. reflexivity. }
  assert (Hs : forall c, is_space c = true -> numeric c = true) by (intros c H; unfold numeric; rewrite H; reflexivity).
  intros Hv E. assert (exists s1 s2 n p1 p2, s = p1 ++ s1 /\ s1 = p2 ++ s2 /\ (forall c, c ∈ p1 -> numeric c = true) /\ (forall c, c ∈ p2 -> numeric c = true) /\ unsigned_num s2 = Some (n, r)) as (s1 & s2 & n & p1 & p2 & E1 & E2 & H1 & H2 & U).
  { destruct Hv as [-> | ->]; unfold scan_one in E; destruct (skip_space s) as [s1|] eqn:Es; try discriminate;
    destruct (skip_space_suffix s s1 Es) as (p1 & E1 & H1).
    - set (q := match s1 with c :: s' => if Ascii.eqb c minus then (true, s') else if Ascii.eqb c plus then (false, s') else (false, s1) | [] => (false, []) end) in E.
      assert (exists p2, s1 = p2 ++ snd q /\ forall c, c ∈ p2 -> numeric c = true) as (p2 & E2 & H2).
      { unfold q. destruct s1 as [|c s1]; [exists []; split; [reflexivity|intros c H; inversion H]|].
        destruct (Ascii.eqb_spec c minus) as [->|_]; [exists [minus]; split; [reflexivity|intros c H; apply elem_of_list_singleton in H as ->; reflexivity]|].
        destruct (Ascii.eqb_spec c plus) as [->|_]; [exists [plus]; split; [reflexivity|intros c H; apply elem_of_list_singleton in H as ->; reflexivity]|].
        exists []. split; [reflexivity|intros x' H; inversion H]. }
      destruct q as [neg s2]. cbn [snd] in E2. destruct (unsigned_num s2) as [[n r']|] eqn:U; [|discriminate]. cbv zeta in E.
      destruct (_ && _); [|discriminate]. apply Some_inj in E. apply pair_equal_spec in E as [_ ->].
      exists s1, s2, n, p1, p2. split_and!; auto.
    - destruct (unsigned_num s1) as [[n r']|] eqn:U; [|discriminate]. destruct (n <? 2 ^ 64); [|discriminate].
      apply Some_inj in E. apply pair_equal_spec in E as [_ ->]. exists s1, s1, n, p1, []. split_and!; auto. intros c H. inversion H. }
  destruct (unsigned_suffix s2 n r U) as (p3 & E3 & N3 & H3). exists (p1 ++ p2 ++ p3). split_and!.
  - rewrite E1, E2, E3, <- !app_assoc. reflexivity.
  - destruct p3; [contradiction|]. destruct p1; [destruct p2; discriminate|discriminate].
  - intros c Hc. rewrite !elem_of_app in Hc. destruct Hc as [Hc|[Hc|Hc]]; auto.
Qed.
Lemma prefix_before {A} (p r t u : list A) x : p ++ r = t ++ x :: u -> x ∉ p -> exists t', t = p ++ t' /\ r = t' ++ x :: u.
Proof.
  revert t. induction p as [|a p IH]; intros t E Hx; [exists t; auto|]. destruct t as [|b t].
  - injection E as <- E. destruct Hx. left.
  - injection E as <- E. destruct (IH t E) as (t' & -> & ->). { intros H. apply Hx. right. exact H. } exists t'. auto.
Qed.
Lemma scan_rest_short vs t x u xs : Forall (fun v => v = Vint \/ v = Vuint) vs -> numeric x = false ->
  scan_rest vs (t ++ x :: u) = Some xs -> (2 * length vs <= length t)%nat.
Proof.
  intros Hv Hx. revert t xs. induction Hv as [|v vs Hv1 Hv IH]; intros t xs E; [cbn; lia|]. cbn [scan_rest] in E.
  destruct (fmt_space (t ++ x :: u)) as [s|] eqn:Ef; [|discriminate].
  assert (exists t1, t = t1 ++ [] \/ True) as _ by (exists t; auto).
  assert (exists p s1, t ++ x :: u = p ++ s /\ p <> [] /\ (forall c, c ∈ p -> is_space c = true) /\ s1 = s) as (p & s1 & Ep & Np & Hp & ->).
  { unfold fmt_space in Ef. destruct (t ++ x :: u) as [|c l] eqn:El; [destruct t; discriminate|].
    destruct (is_space c && negb (Ascii.eqb c newline)) eqn:Eb; [|discriminate]. injection Ef as <-. apply Bool.andb_true_iff in Eb as [Eb _].
    destruct (drop_blanks_suffix l) as (p & El' & Hp). exists (c :: p), (drop_blanks l). split_and!; [cbn; f_equal; exact El'|discriminate| |reflexivity].
    intros d Hd. apply elem_of_cons in Hd as [->|Hd]; [exact Eb|exact (Hp d Hd)]. }
  destruct (prefix_before p s t u x) as (t1 & -> & ->); [congruence| |].
  { intros H. specialize (Hp x H). unfold numeric in Hx. rewrite Hp in Hx. discriminate. }
  destruct (scan_one v (t1 ++ x :: u)) as [[y r]|] eqn:Eo; [|discriminate].
  destruct (scan_num_suffix v _ y r Hv1 Eo) as (q & Eq & Nq & Hq).
  destruct (prefix_before q r t1 u x) as (t2 & -> & ->); [congruence| |].
  { intros H. rewrite (Hq x H) in Hx. discriminate. }
  destruct (scan_rest vs (t2 ++ x :: u)) as [ys|] eqn:Er; [|discriminate]. specialize (IH t2 ys Er).
  rewrite !app_length. destruct p; [contradiction|]. destruct q; [contradiction|]. cbn [length]. lia.
Qed.
Lemma first_blank (s : bytes) : (exists c, c ∈ s /\ blank c) -> exists a b c, s = a ++ c :: b /\ blank c /\ forall d, d ∈ a -> ~ blank d.
Proof.
  induction s as [|d s IH]; intros (c & Hc & Hb); [inversion Hc|]. destruct (is_space d) eqn:E.
  - exists [], s, d. split_and!; [reflexivity|apply blank_space, E|intros x H; inversion H].
  - apply elem_of_cons in Hc as [->|Hc]; [apply blank_space in Hb; congruence|]. destruct IH as (a & b & c' & -> & Hb' & Ha); [eauto|].
    exists (d :: a), b, c'. split_and!; [reflexivity|exact Hb'|]. intros x Hx. apply elem_of_cons in Hx as [->|Hx]; [|exact (Ha x Hx)].
    intros H. apply blank_space in H. congruence.
Qed.
Lemma scan_comm_blank pid n comm state rest :
  dec_num pid n -> (exists c, c ∈ comm /\ blank c) -> (length comm <= 64)%nat -> numeric state = false ->
  scan (map snd stat_fields) (pid ++ B " (" ++ comm ++ B ") " ++ state :: rest) = None.
Proof.
  intros Hp Hb Hl Hst. destruct (scan (map snd stat_fields) _) as [xs|] eqn:E; [exfalso|reflexivity].
  change (map snd stat_fields) with (Vint :: Vstring :: Vbyte :: map snd (drop 3 stat_fields)) in E. unfold scan in E.
  destruct (first_blank comm Hb) as (a & b & c & -> & Hc & Ha).
  destruct (scan_one Vint _) as [[x r]|] eqn:E1; [|discriminate].
  assert (r = B " (" ++ (a ++ c :: b) ++ B ") " ++ state :: rest) as ->.
  { unfold scan_one in E1. destruct (dec_num_hd pid n Hp) as (c1 & s1 & d & E0 & Ed).
    assert (Hle : line_end (B " (" ++ (a ++ c :: b) ++ B ") " ++ state :: rest)) by (cbn; apply blank_space; reflexivity).
    pose proof (unsigned_num_text pid n _ Hp Hle) as U. rewrite E0 in E1, U. cbn [app] in E1, U.
    rewrite (skip_space_solid c1 _ (digit_not_space c1 d Ed)) in E1. destruct (digit_not_sign c1 d Ed) as [N1 N2].
    destruct (Ascii.eqb_spec c1 minus) as [|_]; [contradiction|]. destruct (Ascii.eqb_spec c1 plus) as [|_]; [contradiction|].
    rewrite U in E1. cbv zeta in E1. destruct (_ && _); [|discriminate]. apply Some_inj, pair_equal_spec in E1 as [_ <-]. reflexivity. }
  clear E1. destruct (scan_rest _ _) as [ys|] eqn:E2; [|discriminate]. clear E.
  cbn [scan_rest] in E2. change (B " (" ++ (a ++ c :: b) ++ B ") " ++ state :: rest) with (" "%char :: "("%char :: (a ++ c :: b) ++ B ") " ++ state :: rest) in E2.
  unfold fmt_space at 1 in E2. change (is_space " " && negb (Ascii.eqb " " newline)) with true in E2. cbv iota in E2.
  rewrite (drop_blanks_solid "("%char _ eq_refl) in E2. unfold scan_one at 1 in E2. rewrite (skip_space_solid "("%char _ eq_refl) in E2.
  replace ("("%char :: (a ++ c :: b) ++ B ") " ++ state :: rest) with (("("%char :: a) ++ c :: b ++ B ") " ++ state :: rest) in E2 by (rewrite <- app_assoc; reflexivity).
  rewrite take_word_app in E2.
  2:{ intros d Hd. apply elem_of_cons in Hd as [->|Hd]; [|exact (Ha d Hd)]. intros H. apply blank_space in H. vm_compute in H. discriminate. }
  2:{ exact Hc. }
  cbv iota in E2. destruct (fmt_space (c :: b ++ B ") " ++ state :: rest)) as [s|] eqn:Ef; [|discriminate].
  unfold fmt_space in Ef. destruct (is_space c && negb (Ascii.eqb c newline)); [|discriminate]. injection Ef as <-.
  assert (exists p b', b = p ++ b' /\ drop_blanks (b ++ B ") " ++ state :: rest) = b' ++ B ") " ++ state :: rest) as (p & b' & -> & Ed).
  { clear. induction b as [|d b IH]; [exists [], []; split; reflexivity|]. cbn [app drop_blanks]. destruct (_ && _).
    - destruct IH as (p & b' & -> & E). exists (d :: p), b'. split; [reflexivity|exact E].
    - exists [], (d :: b). split; reflexivity. }
  change (drop_blanks ((p ++ b') ++ ")"%char :: " "%char :: state :: rest)) with (drop_blanks ((p ++ b') ++ B ") " ++ state :: rest)) in E2. rewrite Ed in E2. set (ints := map snd (drop 3 stat_fields)) in E2.
  assert (Hints : Forall (fun v => v = Vint \/ v = Vuint) ints) by (unfold ints; vm_compute; repeat (constructor; [auto|]); constructor).
  assert (Lints : length ints = 41%nat) by reflexivity. clearbody ints.
  destruct b' as [|c0 b'].
  - cbn [app] in E2. change (B ") " ++ state :: rest) with (")"%char :: [" "%char] ++ state :: rest) in E2. cbn [scan_one] in E2. destruct (scan_rest ints _) as [zs|] eqn:E3; [|discriminate].
    pose proof (scan_rest_short ints [" "%char] state rest zs Hints Hst E3) as H. rewrite Lints in H. cbn in H. lia.
  - cbn [app scan_one] in E2. destruct (scan_rest ints _) as [zs|] eqn:E3; [|discriminate].
    pose proof (scan_rest_short ints b' ")"%char ([" "%char] ++ state :: rest) zs Hints eq_refl E3) as H. rewrite Lints in H.
    rewrite !app_length in Hl. cbn [length] in Hl. rewrite app_length in Hl. cbn [length] in Hl. lia.
Qed.

(** ** Register *)
Lemma register_app {S} (regs chained : list S) : register regs chained = chained ++ regs.
Proof.
  unfold register. revert chained. induction regs as [|r regs IH]; intros chained; cbn [fold_left]; [rewrite app_nil_r; reflexivity|].
  rewrite IH, <- app_assoc. reflexivity.
Qed.
