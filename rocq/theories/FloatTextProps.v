(** C85: StatsText can be read back, values to six places.  C86: StatsJSON gives values exactly. *)
From Verif Require Import Base BaseProofs SeriesModel SeriesSpec SeriesProofs PresentModel PresentSpec PresentProofs SvgModel SvgSpec SvgProofs SvgNumProofs JsonModel JsonSpec JsonProofs JsonProps
  FloatTextModel FloatTextSpec FloatTextProofs FloatTextProofs2 FloatTextProofs3.
Local Open Scope Z_scope.
Local Arguments B : simpl never.

(** ** C85 *)
(** The report, as far as the writer takes it, is a line for each stat: its name and its value. *)
Definition stat_shown (e : series_key * bytes * float64) (line : bytes * bytes) : Prop :=
  let '(key, field, f) := e in fst line = with_field key field /\ shown f (snd line).
Theorem C85_stats : forall faults s stats,
  Forall (fun '(key, field, f) => one_line key field /\ float_ok f) stats ->
  exists chunks lines, delivered faults s chunks (stats_report faults s stats) /\ read_stats (concat chunks) = Some lines /\ Forall2 stat_shown stats lines.
Proof.
  intros faults s stats H. exists (map stat_line stats), (map (fun '(key, field, f) => (with_field key field, fixed_text 6 f)) stats).
  split; [apply stats_text_delivered|]. split; [apply stats_read, H|].
  induction H as [|[[key field] f] stats [Hn Hf] _ IH]; constructor; [|exact IH]. split; [reflexivity|apply fixed_shown, Hf].
Qed.
Print Assumptions C85_stats.
(** So reports that are the same are about the same series, and values no more than a millionth apart. *)
Definition same_stat (e1 e2 : series_key * bytes * float64) : Prop :=
  let '(key1, field1, f1) := e1 in
  let '(key2, field2, f2) := e2 in
  key1 = key2 /\ field1 = field2 /\
  match f1, f2 with
  | Fin64 neg1 m1 j1, Fin64 neg2 m2 j2 => neg1 = neg2 /\ Z.abs (m1 * 2 ^ j1 - m2 * 2 ^ j2) * 10 ^ 6 <= 2 ^ 1074
  | _, _ => f1 = f2
  end.
Theorem C85_same : forall stats1 stats2,
  Forall (fun '(key, field, f) => one_line key field /\ float_ok f /\ no_trailing_backslash (sk_measurement key) (sk_tags key)) stats1 ->
  Forall (fun '(key, field, f) => one_line key field /\ float_ok f /\ no_trailing_backslash (sk_measurement key) (sk_tags key)) stats2 ->
  concat (map stat_line stats1) = concat (map stat_line stats2) -> Forall2 same_stat stats1 stats2.
Proof.
  intros l1 l2 H1 H2 E.
  assert (R : map (fun '(key, field, f) => (with_field key field, fixed_text 6 f)) l1 = map (fun '(key, field, f) => (with_field key field, fixed_text 6 f)) l2).
  { apply Some_inj. rewrite <- !stats_read; [rewrite E; reflexivity| |]; [eapply Forall_impl; [exact H2|]|eapply Forall_impl; [exact H1|]]; intros [[k d] f] (? & ? & _); split; assumption. }
  clear E. revert l2 H2 R. induction H1 as [|[[k1 d1] f1] l1 (O1 & F1 & B1) _ IH]; intros [|[[k2 d2] f2] l2] H2 R; try discriminate; [constructor|].
  apply Forall_cons in H2 as [(O2 & F2 & B2) H2]. cbn [map] in R. apply (f_equal (fun l => (head l, tail l))) in R. cbn [head tail] in R. apply pair_equal_spec in R as [R0 R].
  constructor; [|apply IH; assumption]. clear IH R H2. apply Some_inj in R0. apply pair_equal_spec in R0 as [En Ef].
  destruct k1 as [n1 t1], k2 as [n2 t2]. cbn [sk_measurement sk_tags] in *. destruct (with_field_inj n1 t1 d1 n2 t2 d2 B1 B2 En) as (-> & -> & ->).
  split; [reflexivity|]. split; [reflexivity|].
  assert (S1 := fixed_shown f1 F1). assert (S2 := fixed_shown f2 F2). rewrite Ef in S1.
  assert (Sp : forall g, read_number (fixed_text 6 NaN64) = None /\ read_number (fixed_text 6 (Inf64 g)) = None) by (intros [|]; split; vm_compute; reflexivity).
  destruct f1 as [|g1|g1 m1 j1], f2 as [|g2|g2 m2 j2]; try reflexivity.
  - destruct g2; vm_compute in Ef; discriminate.
  - destruct S2 as (x & S2 & _). rewrite <- Ef, (proj1 (Sp true)) in S2. discriminate.
  - destruct g1; vm_compute in Ef; discriminate.
  - destruct g1, g2; try reflexivity; vm_compute in Ef; discriminate.
  - destruct S2 as (x & S2 & _). rewrite <- Ef, (proj2 (Sp g1)) in S2. discriminate.
  - destruct S1 as (x & S1 & _). rewrite (proj1 (Sp true)) in S1. discriminate.
  - destruct S1 as (x & S1 & _). rewrite (proj2 (Sp g2)) in S1. discriminate.
  - destruct S1 as (x & R1 & D1). destruct S2 as (y & R2 & D2). rewrite R2 in R1. apply Some_inj in R1. apply pair_equal_spec in R1 as [R1 _]. apply pair_equal_spec in R1 as [-> ->]. split; [reflexivity|].
    unfold distance in D1, D2. change (Z.max (-6) 0) with 0 in *. change (Z.max (- -6) 0) with 6 in *.
    set (p := m1 * 2 ^ j1) in *. set (q := m2 * 2 ^ j2) in *. set (u := x * 10 ^ 0 * 2 ^ 1074) in *. set (T := 2 ^ 1074) in *. change (10 ^ 6) with 1000000 in *. clearbody p q u T. lia.
Qed.
Print Assumptions C85_same.
(** A whole number is shown exactly. *)
Theorem C85_whole : forall neg m j z, float_ok (Fin64 neg m j) -> m * 2 ^ j = z * 2 ^ 1074 -> read_number (fixed_text 6 (Fin64 neg m j)) = Some (neg, z * 10 ^ 6, -6).
Proof.
  intros neg m j z H E. destruct (fixed_read neg m j H) as (d & R & _ & ->). rewrite R. f_equal. f_equal. f_equal. unfold mag. rewrite E.
  replace (z * 2 ^ 1074 * 10 ^ 6) with (z * 10 ^ 6 * unit64) by (unfold unit64; ring). apply half_even_exact, unit_pos.
Qed.
Print Assumptions C85_whole.
(** Larger values are not shown as smaller ones. *)
Theorem C85_ordered : forall neg m j m' j' d d', float_ok (Fin64 neg m j) -> float_ok (Fin64 neg m' j') -> m * 2 ^ j <= m' * 2 ^ j' ->
  read_number (fixed_text 6 (Fin64 neg m j)) = Some (neg, d, -6) -> read_number (fixed_text 6 (Fin64 neg m' j')) = Some (neg, d', -6) -> d <= d'.
Proof.
  intros neg m j m' j' d d' H H' L R R'. destruct (fixed_read neg m j H) as (x & E & _ & ->). destruct (fixed_read neg m' j' H') as (y & E' & _ & ->).
  rewrite R in E. rewrite R' in E'. apply Some_inj in E, E'. apply pair_equal_spec in E as [E _]. apply pair_equal_spec in E' as [E' _]. apply pair_equal_spec in E as [_ ->]. apply pair_equal_spec in E' as [_ ->].
  apply half_even_mono; [apply unit_pos|]. unfold mag. apply Z.mul_le_mono_nonneg_r; [|exact L]. apply Z.lt_le_incl, ten_pos. lia.
Qed.
Print Assumptions C85_ordered.

(** ** C86 *)
(** The text of a finite value is parsed as that value, and as nothing else. *)
Theorem C86_exact : forall f t, float_ok f -> json_float f = Some t -> parses_as t f /\ forall f', parses_as t f' -> f' = f.
Proof.
  intros f t H E. destruct f as [|neg|neg m j]; try discriminate. destruct (json_float_parses neg m j H) as (t' & E' & P). rewrite E in E'. apply Some_inj in E' as ->.
  split; [exact P|]. intros f' P'. exact (parses_unique t' f' _ P' P).
Qed.
Print Assumptions C86_exact.
(** No number with fewer digits would do. *)
Theorem C86_shortest : forall m j d' e' n, float_parts m j -> j <= 2045 -> 0 < m -> 0 <= n -> rounds_to d' e' m j -> 0 <= d' < 10 ^ n -> fst (shortest m j) < 10 ^ n.
Proof. exact shortest_digits. Qed.
Print Assumptions C86_shortest.
(** StatsJSON: a document with an element for each stat, its last entry the value. *)
Definition value_object (e : bytes * option (list (bytes * bytes)) * bytes * float64) (j : json) : Prop :=
  let '(m, tags, field, f) := e in exists t, stat_object (m, tags, field, t) j /\ parses_as t f.
Theorem C86_stats : forall short_bf stats faults s,
  Forall (fun '(m, tags, field, f) => finite f /\ float_ok f /\ forall l, tags = Some l -> NoDup (map fst l)) stats ->
  exists chunks js, is_json (concat chunks) (JArray js) /\ Forall2 value_object stats js /\ delivered faults s chunks (json_list short_bf faults s (map stat_elem stats)).
Proof.
  intros b stats faults s H. set (txt := fun f => default [] (json_float f)).
  set (g := fun '(m, tags, field, f) => (m, tags, field, txt f) : bytes * option (list (bytes * bytes)) * bytes * bytes).
  assert (T : forall f, finite f -> float_ok f -> json_float f = Some (txt f) /\ parses_as (txt f) f).
  { intros [|?|neg m j] Fi Fo; [contradiction|contradiction|]. destruct (json_float_parses neg m j Fo) as (t & E & P). unfold txt. rewrite E. split; [reflexivity|exact P]. }
  destruct (C80_stats b (map g stats) faults s) as (chunks & js & J & F & D).
  - apply Forall_forall. intros x Hx. apply elem_of_list_In, in_map_iff in Hx as ([[[m tags] field] f] & <- & He). apply elem_of_list_In in He. rewrite Forall_forall in H. destruct (H _ He) as (Fi & Fo & Nd).
    split; [|exact Nd]. destruct (T f Fi Fo) as [_ (n & d & e & m' & j' & _ & R & _)]. unfold read_number in R. destruct (number_text (txt f)); [reflexivity|discriminate].
  - exists chunks, js. split; [exact J|]. split.
    + clear J D. revert js F. induction H as [|[[[m tags] field] f] stats (Fi & Fo & Nd) _ IH]; intros js F; inversion F as [|? ? ? ? F1 F2]; subst; [constructor|]. constructor; [|apply IH; assumption].
      exists (txt f). split; [exact F1|]. apply T; assumption.
    + replace (map stat_elem stats) with (map (fun '(m, tags, field, val) => stats_elem m tags field (Some val)) (map g stats)); [exact D|]. rewrite map_map. apply map_ext_in. intros [[[m tags] field] f] He.
      apply elem_of_list_In in He. rewrite Forall_forall in H. destruct (H _ He) as (Fi & Fo & _). cbn [g stat_elem]. rewrite (proj1 (T f Fi Fo)). reflexivity.
Qed.
Print Assumptions C86_stats.
(** Not so if a value is NaN or infinite: StatsJSON then always fails. *)
Theorem C86_infinite : forall short_bf stats faults s, Exists (fun '(m, tags, field, f) => ~ finite f) stats -> snd (json_list short_bf faults s (map stat_elem stats)) <> None.
Proof.
  intros b stats faults s H. unfold json_list, write_list.
  assert (K : forall l w, lw_err w <> None -> lw_err (fold_left (lw_elem faults) l w) <> None).
  { induction l as [|a l IH]; intros w Hw; [exact Hw|]. cbn [fold_left]. apply IH. unfold lw_elem. destruct (lw_err w); [cbn; discriminate|contradiction]. }
  assert (G : forall w, lw_err (fold_left (lw_elem faults) (map (marshal b) (map stat_elem stats)) w) <> None).
  { induction H as [[[[m tags] field] f] l Hf|a l _ IH]; intros w; cbn [map fold_left]; [|apply IH]. apply K.
    assert (M : marshal b (stat_elem (m, tags, field, f)) = None).
    { destruct f as [|?|? ? ?]; [| |contradiction Hf; exact I]; unfold marshal, stat_elem, stats_elem, json_float; cbn [supported forallb]; rewrite !andb_false_r; reflexivity. }
    rewrite M. unfold lw_elem. destruct (lw_err w) eqn:Ew; cbn [lw_err]; discriminate. }
  unfold lw_done. specialize (G (lw_new faults s)). destruct (lw_err _); [discriminate|contradiction].
Qed.
Print Assumptions C86_infinite.

(** ** What StatsText does not guarantee *)
(** Different values can look the same ... *)
Theorem C85_value_refuted : exists f1 f2, float_ok f1 /\ float_ok f2 /\ finite f1 /\ f1 <> f2 /\ fixed_text 6 f1 = fixed_text 6 f2.
Proof. exists (Fin64 false 1 0), (Fin64 false 2 0). split_and!; try (split; [split; [split; [discriminate|reflexivity]|split; [discriminate|left; reflexivity]]|discriminate]); [exact I|discriminate|vm_compute; reflexivity]. Qed.
Print Assumptions C85_value_refuted.
(** ... and a line break in a name makes lines of its own. *)
Theorem C85_line_refuted : exists key field, length <$> read_stats (stat_line (key, field, Fin64 false 0 0)) = Some 2%nat.
Proof. exists (SeriesKey (B "x=1.000000" ++ [newline] ++ B "m") ∅), (B "f"). vm_compute. reflexivity. Qed.
Print Assumptions C85_line_refuted.

(** ** Examples *)
(** 2.5, 1e-7 and the number of nanoseconds of a day. *)
Definition ex_half : float64 := Fin64 false 5629499534213120 1023.
Definition ex_tiny : float64 := Fin64 true 7555786372591432 998.
Definition ex_day : float64 := Fin64 false (86400000000000 * 2 ^ 6) 1068.
Example C85_example :
  let key := SeriesKey (B "m,1") {[ B "k" := B "v=w" ]} in
  one_line key (B "f") /\ no_trailing_backslash (B "m,1") (sk_tags key) /\ float_ok ex_half /\ float_ok ex_tiny /\ float_ok ex_day /\
  map (fixed_text 6) [ex_half; ex_tiny; ex_day; NaN64; Inf64 false; Inf64 true] = [B "2.500000"; B "-0.000000"; B "86400000000000.000000"; B "NaN"; B "+Inf"; B "-Inf"] /\
  stat_line (key, B "f", ex_half) = B "m\,1,k=v\=w f=2.500000" ++ [newline].
Proof.
  cbv zeta. split; [|split; [|split; [|split; [|split; [|split]]]]].
  - split; [apply (bool_decide_unpack _); vm_compute; exact I|]. split; [apply (bool_decide_unpack _); vm_compute; exact I|].
    intros k v Hk. cbn [sk_tags] in Hk. apply lookup_singleton_Some in Hk as [<- <-]. split; apply (bool_decide_unpack _); vm_compute; exact I.
  - split; [unfold ends_in_backslash; vm_compute; discriminate|]. intros k v Hk. cbn [sk_tags] in Hk. apply lookup_singleton_Some in Hk as [<- <-]. split; unfold ends_in_backslash; vm_compute; discriminate.
  - apply (bool_decide_unpack _). vm_compute. exact I.
  - apply (bool_decide_unpack _). vm_compute. exact I.
  - apply (bool_decide_unpack _). vm_compute. exact I.
  - vm_compute. reflexivity.
  - vm_compute. reflexivity.
Qed.
(** The names of the default quantiles (dist.go 34), by %.02f. *)
Example C85_ex_quantiles : map (fixed_text 2) [Fin64 false 0 0; Fin64 false 7205759403792794 1018; Fin64 false (2 ^ 52) 1020; Fin64 false (2 ^ 52) 1021; Fin64 false 6755399441055744 1021; Fin64 false 8106479329266893 1021; Fin64 false 8556839292003942 1021; Fin64 false (2 ^ 52) 1022] =
  [B "0.00"; B "0.10"; B "0.25"; B "0.50"; B "0.75"; B "0.90"; B "0.95"; B "1.00"].
Proof. vm_compute. reflexivity. Qed.
Example C86_example : finite ex_half /\ float_ok ex_half /\ json_float ex_half = Some (B "2.5") /\ json_float ex_tiny = Some (B "-1e-7") /\ json_float ex_day = Some (B "86400000000000").
Proof. split; [exact I|]. split; [apply (bool_decide_unpack _); vm_compute; exact I|]. split_and!; vm_compute; reflexivity. Qed.
(** Readers. *)
Example C86_ex_read : read_number (B "12.5e3") = Some (false, 125, 2) /\ read_number (B "-0.000250") = Some (true, 250, -6) /\ read_number (B "01") = None /\ read_number (B "1e+21") = Some (false, 1, 21).
Proof. split_and!; vm_compute; reflexivity. Qed.
