From Verif Require Import Base BaseProofs SeriesModel SeriesSpec.
From Coq Require Import Sorted.

Lemma has_byte_false c s : has_byte c s = false <-> c ∉ s.
Proof.
  induction s as [|a s IH]; cbn.
  - split; [intros _; apply not_elem_of_nil | reflexivity].
  - rewrite orb_false_iff, bool_decide_eq_false, IH, not_elem_of_cons. naive_solver.
Qed.

Lemma escape_loop_id sp s : Forall (fun a => sp a = false) s -> escape_loop sp s = s.
Proof.
  induction s as [|a s IH]; intros H; [reflexivity|]. inversion_clear H.
  cbn. rewrite H0. cbn. f_equal. auto.
Qed.

Lemma write_measurement_loop m : write_measurement m = escape_loop meas_special m.
Proof.
  unfold write_measurement.
  destruct (has_byte chComma m) eqn:E1, (has_byte chSpace m) eqn:E2; cbn; try reflexivity.
  symmetry. apply escape_loop_id. apply has_byte_false in E1, E2.
  apply Forall_forall. intros a Ha. unfold meas_special.
  rewrite orb_false_iff, !bool_decide_eq_false. split; intros ->; contradiction.
Qed.

Lemma write_tag_loop t : write_tag t = escape_loop tag_special t.
Proof.
  unfold write_tag.
  destruct (has_byte chComma t) eqn:E1, (has_byte chEq t) eqn:E2, (has_byte chSpace t) eqn:E3;
    cbn; try reflexivity.
  symmetry. apply escape_loop_id. apply has_byte_false in E1, E2, E3.
  apply Forall_forall. intros a Ha. unfold tag_special.
  rewrite !orb_false_iff, !bool_decide_eq_false. split; [split|]; intros ->; contradiction.
Qed.

Lemma escape_loop_esc sp special s :
  (forall a, sp a = true <-> a ∈ special) -> escape_loop sp s = esc special s.
Proof.
  intros H. induction s as [|a s IH]; [reflexivity|]. cbn.
  destruct (decide (a ∈ special)) as [Hin|Hin].
  - rewrite (proj2 (H a) Hin). cbn. rewrite IH. reflexivity.
  - destruct (sp a) eqn:E; [apply H in E; contradiction|]. cbn. rewrite IH. reflexivity.
Qed.

Lemma write_tag_esc t : write_tag t = esc_tag t.
Proof.
  rewrite write_tag_loop. apply escape_loop_esc. intros a. unfold tag_special.
  rewrite !orb_true_iff, !bool_decide_eq_true, !elem_of_cons, elem_of_nil.
  unfold chComma, chEq, chSpace. tauto.
Qed.
Lemma write_measurement_esc m : write_measurement m = esc_measurement m.
Proof.
  rewrite write_measurement_loop. apply escape_loop_esc. intros a. unfold meas_special.
  rewrite !orb_true_iff, !bool_decide_eq_true, !elem_of_cons, elem_of_nil.
  unfold chComma, chSpace. tauto.
Qed.

(** ** Unique decoding *)
Section decode.
  Context (special : list ascii).
  Hypothesis Hbs : "\"%char ∉ special.

  Lemma esc_head s c r : esc special s = c :: r -> c ∉ special.
  Proof.
    destruct s as [|a s]; cbn; [discriminate|].
    destruct (decide (a ∈ special)); intros H; injection H as <- _; assumption.
  Qed.
  Lemma esc_head_app s c x r : s <> [] -> esc special s ++ x = c :: r -> c ∉ special.
  Proof.
    destruct s as [|a s]; cbn; [congruence|]. intros _.
    destruct (decide (a ∈ special)); cbn; intros H; injection H as <- _; assumption.
  Qed.

  Lemma esc_inj s1 s2 : esc special s1 = esc special s2 -> s1 = s2.
  Proof.
    revert s2; induction s1 as [|a s1 IH]; intros [|c s2]; cbn; try reflexivity.
    - destruct (decide _); discriminate.
    - destruct (decide _); discriminate.
    - destruct (decide (a ∈ special)), (decide (c ∈ special)); intros H; injection H.
      + intros H1 <-. f_equal; auto.
      + intros H1 <-. symmetry in H1. apply esc_head in H1. contradiction.
      + intros H1 ->. apply esc_head in H1. contradiction.
      + intros H1 <-. f_equal; auto.
  Qed.

  Lemma not_ends_tail a s : ~ ends_in_backslash (a :: s) -> ~ ends_in_backslash s.
  Proof.
    unfold ends_in_backslash. destruct s; [discriminate|]. rewrite last_cons_cons. auto.
  Qed.

  (** The first special byte not preceded by a backslash ends the component. *)
  Lemma esc_split s1 s2 c1 c2 r1 r2 :
    ~ ends_in_backslash s1 -> ~ ends_in_backslash s2 -> c1 ∈ special -> c2 ∈ special ->
    esc special s1 ++ c1 :: r1 = esc special s2 ++ c2 :: r2 ->
    s1 = s2 /\ c1 = c2 /\ r1 = r2.
  Proof.
    intros E1 E2 H1 H2. revert s2 E1 E2. induction s1 as [|a s1 IH]; intros [|c s2] E1 E2; cbn.
    - naive_solver.
    - destruct (decide (c ∈ special)); cbn; intros H; injection H as -> _; contradiction.
    - destruct (decide (a ∈ special)); cbn; intros H; injection H as <- _; contradiction.
    - destruct (decide (a ∈ special)) as [Ha|Ha], (decide (c ∈ special)) as [Hc|Hc]; cbn;
        intros H; injection H.
      + intros H3 <-. apply IH in H3; eauto using not_ends_tail. naive_solver.
      + intros H3 <-. destruct s2 as [|d s2].
        * destruct E2. reflexivity.
        * symmetry in H3. apply esc_head_app in H3; [contradiction|discriminate].
      + intros H3 ->. destruct s1 as [|d s1].
        * destruct E1. reflexivity.
        * apply esc_head_app in H3; [contradiction|discriminate].
      + intros H3 <-. apply IH in H3; eauto using not_ends_tail. naive_solver.
  Qed.
End decode.

Lemma tag_bs : "\"%char ∉ [","; "="; " "]%char.
Proof. intros H. repeat (apply elem_of_cons in H as [H|H]; [discriminate|]). inversion H. Qed.
Lemma meas_bs : "\"%char ∉ [","; " "]%char.
Proof. intros H. repeat (apply elem_of_cons in H as [H|H]; [discriminate|]). inversion H. Qed.

(** ** The tag list *)
Lemma write_kvs_any i j kvs : write_kvs (S i) kvs = write_kvs (S j) kvs.
Proof.
  revert i j. induction kvs as [|[k v] kvs IH]; intros i j; [reflexivity|].
  cbn. rewrite (IH (S i) (S j)). reflexivity.
Qed.
Lemma write_kvs_S i kvs : write_kvs (S i) kvs = match kvs with [] => [] | _ => "," %char :: write_kvs 0 kvs end.
Proof.
  destruct kvs as [|[k v] kvs]; [reflexivity|]. cbn. rewrite (write_kvs_any (S i) 0). reflexivity.
Qed.

Lemma write_kvs_join kvs : write_kvs 0 kvs = join (B ",") (map show_kv kvs).
Proof.
  induction kvs as [|[k v] kvs IH]; [reflexivity|].
  cbn [write_kvs Nat.ltb Nat.leb]. cbn [app].
  rewrite write_kvs_S. rewrite !write_tag_esc.
  destruct kvs as [|kv kvs].
  - cbn. unfold show_kv. cbn. rewrite app_nil_r. reflexivity.
  - rewrite IH. cbn [map join]. unfold show_kv at 2. cbn [fst snd].
    cbn. rewrite <- !app_assoc. cbn. reflexivity.
Qed.

Lemma kv_less_trans x y z : kv_less y x = false -> kv_less z y = false -> kv_less z x = false.
Proof.
  unfold kv_less. intros H1 H2.
  destruct (bytes_ltb z.1 x.1) eqn:E; [|reflexivity].
  destruct (bytes_ltb x.1 y.1) eqn:E2.
  - pose proof (bytes_ltb_trans _ _ _ E E2). congruence.
  - pose proof (bytes_ltb_total _ _ E2 H1) as He. rewrite He in E. congruence.
Qed.
Lemma kv_less_asym x y : kv_less x y = true -> kv_less y x = false.
Proof. apply bytes_ltb_asym. Qed.

Definition kv_lt (x y : bytes * bytes) : Prop := bytes_lt (fst x) (fst y).

Lemma isort_kv_strict range :
  NoDup range.*1 -> StronglySorted kv_lt (isort kv_less range).
Proof.
  intros Hnd.
  pose proof (isort_sorted kv_less kv_less_trans kv_less_asym range) as Hs.
  assert (Hnd' : NoDup (isort kv_less range).*1) by (rewrite isort_perm; assumption).
  induction (isort kv_less range) as [|x l IH]; [constructor|].
  apply StronglySorted_inv in Hs as [Hs Hf]. cbn in Hnd'. apply NoDup_cons in Hnd' as [Hx Hnd'].
  constructor; [auto|]. rewrite Forall_forall in *. intros y Hy.
  specialize (Hf y Hy). unfold nolater, kv_less in Hf. unfold kv_lt, bytes_lt.
  destruct (bytes_ltb x.1 y.1) eqn:E; [reflexivity|].
  destruct Hx. rewrite (bytes_ltb_total _ _ E Hf). apply elem_of_list_fmap_1. assumption.
Qed.

Lemma kv_lt_unique l1 l2 :
  StronglySorted kv_lt l1 -> StronglySorted kv_lt l2 -> l1 ≡ₚ l2 -> l1 = l2.
Proof.
  apply strictly_sorted_unique.
  - intros x H. unfold kv_lt, bytes_lt in H. rewrite bytes_ltb_irrefl in H. discriminate.
  - intros x y z. apply bytes_ltb_trans.
Qed.

Lemma range_NoDup (m : gmap bytes bytes) range : range ≡ₚ map_to_list m -> NoDup range.*1.
Proof. intros H. rewrite H. apply NoDup_fst_map_to_list. Qed.

Lemma write_tags_shows tags range :
  range ≡ₚ map_to_list tags -> shows_tags tags (write_tags range).
Proof.
  intros Hp. exists (isort kv_less range). split; [|split].
  - rewrite isort_perm. assumption.
  - apply isort_kv_strict. eapply range_NoDup, Hp.
  - apply write_kvs_join.
Qed.

Lemma shows_tags_unique tags x y : shows_tags tags x -> shows_tags tags y -> x = y.
Proof.
  intros (l1 & P1 & S1 & ->) (l2 & P2 & S2 & ->).
  assert (E : l1 = l2); [|rewrite E; reflexivity].
  apply kv_lt_unique; [exact S1|exact S2|]. rewrite P1, P2. reflexivity.
Qed.

Lemma write_tags_canonical tags range1 range2 :
  range1 ≡ₚ map_to_list tags -> range2 ≡ₚ map_to_list tags ->
  write_tags range1 = write_tags range2.
Proof.
  intros H1 H2. apply (shows_tags_unique tags); apply write_tags_shows; assumption.
Qed.

Lemma series_string_range_perm m tags range :
  range ≡ₚ map_to_list tags -> series_string_range m range = series_string (SeriesKey m tags).
Proof.
  intros H. unfold series_string, series_string_range. cbn. f_equal.
  destruct range as [|x r] eqn:E.
  - apply Permutation_nil in H. rewrite H. reflexivity.
  - destruct (map_to_list tags) eqn:E2.
    + symmetry in H. apply Permutation_nil in H. discriminate.
    + f_equal. eapply write_tags_canonical; [|rewrite <- E2; reflexivity].
      rewrite <- E2 in H. exact H.
Qed.

(** The tag list followed by the field separator decodes uniquely. *)
Definition clean_kv (kv : bytes * bytes) : Prop :=
  ~ ends_in_backslash (fst kv) /\ ~ ends_in_backslash (snd kv).

Lemma join_kvs_inj l1 l2 r1 r2 :
  Forall clean_kv l1 -> Forall clean_kv l2 -> l1 <> [] -> l2 <> [] ->
  join (B ",") (map show_kv l1) ++ chSpace :: r1 = join (B ",") (map show_kv l2) ++ chSpace :: r2 ->
  l1 = l2 /\ r1 = r2.
Proof.
  revert l2. induction l1 as [|[k1 v1] l1 IH]; intros l2 C1 C2 N1 N2; [congruence|].
  destruct l2 as [|[k2 v2] l2]; [congruence|].
  inversion_clear C1 as [|?? [Ck1 Cv1] C1']. inversion_clear C2 as [|?? [Ck2 Cv2] C2'].
  cbn in Ck1, Cv1, Ck2, Cv2. intros H.
  assert (Hk : exists c1 t1, join (B ",") (map show_kv ((k1,v1) :: l1)) ++ chSpace :: r1 =
     esc_tag k1 ++ chEq :: (esc_tag v1 ++ c1 :: t1) /\
     ((c1 = chSpace /\ l1 = [] /\ t1 = r1) \/
      (c1 = chComma /\ l1 <> [] /\ t1 = join (B ",") (map show_kv l1) ++ chSpace :: r1))).
  { destruct l1 as [|kv l1].
    - exists chSpace, r1. split; [|left; auto]. cbn. unfold show_kv. cbn.
      rewrite <- app_assoc. reflexivity.
    - exists chComma, (join (B ",") (map show_kv (kv :: l1)) ++ chSpace :: r1).
      split; [|right; split; [reflexivity|split; [discriminate|reflexivity]]].
      cbn [map join]. unfold show_kv at 1. cbn. rewrite <- !app_assoc. cbn. rewrite <- ?app_assoc. reflexivity. }
  assert (Hk2 : exists c1 t1, join (B ",") (map show_kv ((k2,v2) :: l2)) ++ chSpace :: r2 =
     esc_tag k2 ++ chEq :: (esc_tag v2 ++ c1 :: t1) /\
     ((c1 = chSpace /\ l2 = [] /\ t1 = r2) \/
      (c1 = chComma /\ l2 <> [] /\ t1 = join (B ",") (map show_kv l2) ++ chSpace :: r2))).
  { destruct l2 as [|kv l2].
    - exists chSpace, r2. split; [|left; auto]. cbn. unfold show_kv. cbn.
      rewrite <- app_assoc. reflexivity.
    - exists chComma, (join (B ",") (map show_kv (kv :: l2)) ++ chSpace :: r2).
      split; [|right; split; [reflexivity|split; [discriminate|reflexivity]]].
      cbn [map join]. unfold show_kv at 1. cbn. rewrite <- !app_assoc. cbn. rewrite <- ?app_assoc. reflexivity. }
  destruct Hk as (c1 & t1 & E1 & D1), Hk2 as (c2 & t2 & E2 & D2).
  rewrite E1, E2 in H. clear E1 E2.
  apply (esc_split _ tag_bs) in H as (-> & _ & H); [|assumption..|set_solver|set_solver].
  assert (Hc1 : c1 ∈ [","; "="; " "]%char) by (destruct D1 as [[-> _]|[-> _]]; set_solver).
  assert (Hc2 : c2 ∈ [","; "="; " "]%char) by (destruct D2 as [[-> _]|[-> _]]; set_solver).
  apply (esc_split _ tag_bs) in H as (-> & Hc & H); [|assumption..].
  destruct D1 as [(-> & -> & ->)|(-> & N1' & ->)], D2 as [(-> & -> & ->)|(-> & N2' & ->)];
    try discriminate Hc.
  - split; [reflexivity|exact H].
  - apply IH in H as [-> ->]; auto.
Qed.

Lemma clean_kvs m tags l : no_trailing_backslash m tags -> l ≡ₚ map_to_list tags -> Forall clean_kv l.
Proof.
  intros [_ H] Hp. rewrite Hp. apply Forall_forall. intros [k v] Hin.
  apply elem_of_map_to_list in Hin. apply H, Hin.
Qed.

Lemma with_field_split m range field :
  with_field_range m range field =
  esc_measurement m ++ match range with [] => [] | _ => chComma :: join (B ",") (map show_kv (isort kv_less range)) end
  ++ chSpace :: esc_tag field.
Proof.
  unfold with_field_range, series_string_range.
  rewrite write_measurement_esc, write_tag_esc, <- app_assoc.
  destruct range; [reflexivity|]. unfold write_tags. rewrite write_kvs_join. reflexivity.
Qed.

Lemma perm_map_to_list_eq (m1 m2 : gmap bytes bytes) : map_to_list m1 ≡ₚ map_to_list m2 -> m1 = m2.
Proof. apply map_to_list_inj. Qed.

Lemma with_field_range_inj m1 t1 r1 f1 m2 t2 r2 f2 :
  no_trailing_backslash m1 t1 -> no_trailing_backslash m2 t2 ->
  r1 ≡ₚ map_to_list t1 -> r2 ≡ₚ map_to_list t2 ->
  with_field_range m1 r1 f1 = with_field_range m2 r2 f2 ->
  m1 = m2 /\ t1 = t2 /\ f1 = f2.
Proof.
  intros C1 C2 P1 P2. rewrite !with_field_split.
  assert (K1 : Forall clean_kv (isort kv_less r1)) by (apply (clean_kvs m1 t1); [assumption|]; rewrite isort_perm; assumption).
  assert (K2 : Forall clean_kv (isort kv_less r2)) by (apply (clean_kvs m2 t2); [assumption|]; rewrite isort_perm; assumption).
  pose proof (isort_perm kv_less r1) as I1. pose proof (isort_perm kv_less r2) as I2.
  destruct C1 as [C1 _], C2 as [C2 _].
  destruct r1 as [|x1 r1], r2 as [|x2 r2]; intros H; cbn [app] in H.
  - apply (esc_split _ meas_bs) in H as (-> & _ & H); [|assumption..|set_solver|set_solver].
    apply esc_inj in H as ->; [|apply tag_bs].
    split; [reflexivity|]. split; [|reflexivity].
    apply Permutation_nil in P1, P2. apply map_to_list_empty_iff in P1, P2. congruence.
  - apply (esc_split _ meas_bs) in H as (_ & H & _); [discriminate H|assumption..|set_solver|set_solver].
  - apply (esc_split _ meas_bs) in H as (_ & H & _); [discriminate H|assumption..|set_solver|set_solver].
  - rewrite <- ?app_assoc in H.
    apply (esc_split _ meas_bs) in H as (-> & _ & H); [|assumption..|set_solver|set_solver].
    apply join_kvs_inj in H as [He H]; [|assumption..| |].
    + apply esc_inj in H as ->; [|apply tag_bs].
      split; [reflexivity|]. split; [|reflexivity].
      apply perm_map_to_list_eq. rewrite <- P1, <- P2, <- I1, <- I2, He. reflexivity.
    + intros E. rewrite E in I1. apply Permutation_nil in I1. discriminate.
    + intros E. rewrite E in I2. apply Permutation_nil in I2. discriminate.
Qed.

Lemma with_field_range_with_field k f : with_field k f = with_field_range (sk_measurement k) (map_to_list (sk_tags k)) f.
Proof. reflexivity. Qed.

Lemma with_field_inj m1 t1 f1 m2 t2 f2 :
  no_trailing_backslash m1 t1 -> no_trailing_backslash m2 t2 ->
  with_field (SeriesKey m1 t1) f1 = with_field (SeriesKey m2 t2) f2 ->
  m1 = m2 /\ t1 = t2 /\ f1 = f2.
Proof.
  intros C1 C2. rewrite !with_field_range_with_field. apply with_field_range_inj; auto.
Qed.

(** ** Tag updates *)
Lemma with_tags_lookup k tags key :
  sk_tags (with_tags k tags) !! key =
  match last_match (fun t => if decide (fst t = key) then Some (snd t) else None) tags with
  | Some v => Some v
  | None => sk_tags k !! key
  end.
Proof.
  unfold with_tags. cbn. generalize (sk_tags k) as m.
  induction tags as [|[a v] tags IH]; intros m; cbn; [reflexivity|].
  rewrite IH. cbn. destruct (last_match _ tags); [reflexivity|].
  destruct (decide (a = key)) as [->|Hne].
  - apply lookup_insert.
  - apply lookup_insert_ne. assumption.
Qed.

(** ** Collect *)
Lemma collect_map_lookup {V} (src : list (stat V)) name :
  collect_map src !! name =
  last_match (fun s => if decide (with_field (st_key s) (st_field s) = name)
                       then Some (st_val s) else None) src.
Proof.
  unfold collect_map.
  assert (H : forall m : gmap bytes V, fold_left (fun rv s => <[with_field (st_key s) (st_field s) := st_val s]> rv) src m !! name
     = match last_match (fun s => if decide (with_field (st_key s) (st_field s) = name)
                       then Some (st_val s) else None) src with Some v => Some v | None => m !! name end).
  { induction src as [|s src IH]; intros m; cbn; [reflexivity|].
    rewrite IH. destruct (last_match _ src); [reflexivity|].
    destruct (decide _) as [<-|Hne]; [apply lookup_insert | apply lookup_insert_ne; assumption]. }
  rewrite H, lookup_empty. destruct (last_match _ _); reflexivity.
Qed.
