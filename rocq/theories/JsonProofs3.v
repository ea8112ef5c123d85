(** Proofs for C79-C80: what the values read stand for. *)
From Coq Require Import Sorted.
From Verif Require Import Base BaseProofs PresentModel PresentSpec PresentProofs LayoutModel SvgModel SvgSpec SvgProofs SvgNumProofs ArgsModel ArgsSpec ArgsProofs JsonModel JsonSpec JsonProofs JsonProofs2.
Local Open Scope Z_scope.
Local Arguments B : simpl never.

Lemma depth_list (l : list gov) n : (depth (GSlice l) <= S n)%nat -> forall x, x ∈ l -> (depth x <= n)%nat.
Proof. cbn [depth]. intros H x Hx. apply le_S_n, maxl_le in H. rewrite Forall_forall in H. apply H. apply elem_of_list_In, in_map, elem_of_list_In, Hx. Qed.
Lemma depth_fields (l : list (bytes * gov)) n : (depth (GStruct l) <= S n)%nat -> forall x, x ∈ l -> (depth (snd x) <= n)%nat.
Proof. cbn [depth]. intros H x Hx. apply le_S_n, maxl_le in H. rewrite Forall_forall in H. apply H. apply elem_of_list_In, (in_map (fun f => depth (snd f))), elem_of_list_In, Hx. Qed.
Lemma int64_abs v : int64 v -> Z.abs v < 10 ^ 20.
Proof. unfold int64. lia. Qed.
Lemma proper_ok_n : forall n v, (depth v <= n)%nat -> proper v -> ok v = true.
Proof.
  induction n as [|n IH]; intros v Hd H; [destruct v; cbn in Hd; lia|].
  destruct H as [|b|v Hv|t Ht|s|l Hl|l Hl|l Hn Hl]; try reflexivity; cbn [ok].
  - apply Z.ltb_lt, int64_abs, Hv.
  - exact Ht.
  - apply forallb_forall. intros x Hx. apply elem_of_list_In in Hx. rewrite Forall_forall in Hl. apply IH; [apply (depth_list l n Hd), Hx|apply Hl, Hx].
  - apply forallb_forall. intros x Hx. apply elem_of_list_In in Hx. rewrite Forall_forall in Hl. apply IH; [apply (depth_fields l n Hd), Hx|apply Hl, Hx].
  - apply forallb_forall. intros x Hx. apply elem_of_list_In in Hx. rewrite Forall_forall in Hl. apply IH; [apply (depth_fields l n Hd), Hx|apply Hl, Hx].
Qed.
Lemma proper_ok v : proper v -> ok v = true.
Proof. apply (proper_ok_n (depth v)). lia. Qed.
Lemma proper_all vs : Forall proper vs -> forallb ok vs = true.
Proof. induction 1 as [|v vs Hv _ IH]; [reflexivity|]. cbn. rewrite proper_ok by exact Hv. exact IH. Qed.
Lemma proper_marshal b v : proper v -> marshal b v = Some (json_enc b v).
Proof. intros H. unfold marshal. rewrite (ok_supported (depth v) v (le_n _) (proper_ok v H)). reflexivity. Qed.
Lemma Forall2_map_r {A C D} (R : A -> D -> Prop) (g : C -> D) l l' : Forall2 (fun x y => R x (g y)) l l' <-> Forall2 R l (map g l').
Proof. symmetry. apply Forall2_fmap_r. Qed.
Lemma Forall2_map_self {A C} (R : A -> C -> Prop) (g : A -> C) l : (forall x, x ∈ l -> R x (g x)) -> Forall2 R l (map g l).
Proof. induction l as [|x l IH]; intros H; cbn [map]; constructor; [apply H; left|]. apply IH. intros y Hy. apply H. right. exact Hy. Qed.
Lemma proper_stands_n : forall n v, (depth v <= n)%nat -> proper v -> stands v (jval v).
Proof.
  induction n as [|n IH]; intros v Hd H; [destruct v; cbn in Hd; lia|].
  destruct H as [|b|v Hv|t Ht|s|l Hl|l Hl|l Hn Hl]; try (constructor; fail).
  - constructor. apply dec_read, int64_abs, Hv.
  - constructor. apply repl_replaced.
  - cbn [jval]. constructor. apply Forall2_map_self. intros x Hx. rewrite Forall_forall in Hl. apply IH; [apply (depth_list l n Hd), Hx|apply Hl, Hx].
  - cbn [jval]. constructor. rewrite map_map. apply Forall2_map_self. intros x Hx. cbn [fst snd]. split; [apply repl_replaced|]. rewrite Forall_forall in Hl. apply IH; [apply (depth_fields l n Hd), Hx|apply Hl, Hx].
  - rewrite jval_map. cbn [jval]. apply (stands_map l (isort key_less l)); [apply isort_perm|apply key_sorted, Hn|]. rewrite map_map. apply Forall2_map_self. intros x Hx.
    cbn [fst snd]. split; [apply repl_replaced|]. rewrite isort_perm in Hx. rewrite Forall_forall in Hl. apply IH; [apply (depth_fields l n Hd), Hx|apply Hl, Hx].
Qed.
Lemma proper_stands v : proper v -> stands v (jval v).
Proof. apply (proper_stands_n (depth v)). lia. Qed.
Lemma enc_order b l l' : NoDup (map fst l) -> l ≡ₚ l' -> json_enc b (GMap l) = json_enc b (GMap l').
Proof.
  intros Hn P. rewrite !enc_map. do 2 f_equal. apply (strictly_sorted_unique (fun x y => bytes_lt (fst x) (fst y))).
  - intros x H. unfold bytes_lt in H. rewrite bytes_ltb_irrefl in H. discriminate.
  - intros x y z. apply bytes_ltb_trans.
  - apply key_sorted, Hn.
  - apply key_sorted. rewrite <- P. exact Hn.
  - rewrite !isort_perm. exact P.
Qed.

(** ** One line, nothing HTML would take for markup *)
Definition inline (c : ascii) : bool := (32 <=? byte c) && negb (byte c =? 60) && negb (byte c =? 62) && negb (byte c =? 38).
Lemma inline_char c : inline c = true -> 32 <= byte c /\ byte c <> 60 /\ byte c <> 62 /\ byte c <> 38.
Proof. unfold inline. rewrite !andb_true_iff, !negb_true_iff, Z.leb_le, !Z.eqb_neq. lia. Qed.
Lemma inline_utf8 r : scalar r -> 32 <= r -> r <> 60 -> r <> 62 -> r <> 38 -> forallb inline (utf8 r) = true.
Proof.
  intros H A C D E. destruct (utf8_bytes r H) as [(L & -> & Eb)|(L & F)].
  - cbn. rewrite andb_true_r. unfold inline. rewrite Eb. rewrite !andb_true_iff, !negb_true_iff, Z.leb_le, !Z.eqb_neq. lia.
  - apply forallb_forall. intros c Hc. rewrite Forall_forall in F. specialize (F c ltac:(apply elem_of_list_In, Hc)). unfold inline. rewrite !andb_true_iff, !negb_true_iff, Z.leb_le, !Z.eqb_neq. lia.
Qed.
Lemma inline_hexn n : forall v, forallb inline (hexn n v) = true.
Proof.
  induction n as [|n IH]; intros v; [reflexivity|]. cbn [hexn]. rewrite forallb_app, IH. cbn. rewrite andb_true_r. pose proof (Z.mod_pos_bound v 16 ltac:(lia)).
  unfold inline. rewrite hexd_byte by lia. rewrite !andb_true_iff, !negb_true_iff, Z.leb_le, !Z.eqb_neq. destruct (Z.ltb_spec (v mod 16) 10); lia.
Qed.
Lemma inline_rune b r : scalar r -> forallb inline (json_rune b r (utf8 r)) = true.
Proof.
  intros H. unfold json_rune. destruct ((r =? 34) || (r =? 92)) eqn:E1.
  { apply orb_prop in E1 as [E|E]; apply Z.eqb_eq in E as ->; reflexivity. }
  repeat (match goal with |- context [if ?c then B _ else _] => destruct c; [vm_compute; reflexivity|] end).
  destruct ((r <? 32) || (r =? 60) || (r =? 62) || (r =? 38)) eqn:E2; [rewrite forallb_app, inline_hexn; vm_compute; reflexivity|].
  destruct ((r =? 8232) || (r =? 8233)); [rewrite forallb_app, inline_hexn; vm_compute; reflexivity|].
  rewrite !orb_false_iff, Z.ltb_ge, !Z.eqb_neq in E2. apply inline_utf8; [exact H|lia..].
Qed.
Lemma inline_string b s : forallb inline (json_string b s) = true.
Proof.
  unfold json_string. rewrite !forallb_app. change (forallb inline [quote]) with true. rewrite andb_true_r. cbn [andb].
  generalize (le_n (length s)). generalize (length s) at 2 3. intros fuel. revert s.
  induction fuel as [|fuel IH]; intros s Hf; [reflexivity|]. destruct s as [|c s]; [reflexivity|]. cbn [json_string_go]. cbn [length] in Hf.
  destruct (decode_cases (fun _ => true) c s) as [E|(r & s' & Hr & Es & D & Nb & Hl)].
  - rewrite E. cbn [Nat.eqb rune_error Z.eqb Pos.eqb andb]. rewrite forallb_app. change (drop 1 (c :: s)) with s. rewrite IH by lia. vm_compute. reflexivity.
  - rewrite D, Nb, Es, take_app, drop_app. rewrite forallb_app, inline_rune, IH by (exact Hr || lia). reflexivity.
Qed.
Lemma inline_number t : forallb number_char t = true -> forallb inline t = true.
Proof.
  intros H. apply forallb_forall. intros c Hc. rewrite forallb_forall in H. specialize (H c Hc). unfold number_char, is_digit in H. unfold inline.
  rewrite !orb_true_iff, andb_true_iff, !Z.leb_le, !Z.eqb_eq in H. rewrite !andb_true_iff, !negb_true_iff, Z.leb_le, !Z.eqb_neq. lia.
Qed.
Lemma inline_join sep l : forallb inline sep = true -> Forall (fun t => forallb inline t = true) l -> forallb inline (join sep l) = true.
Proof.
  intros Hs. induction 1 as [|a l Ha Hl IH]; [reflexivity|]. destruct l as [|c l]; [exact Ha|].
  change (join sep (a :: c :: l)) with (a ++ sep ++ join sep (c :: l)). rewrite !forallb_app, Ha, Hs. exact IH.
Qed.
Lemma inline_enc b : forall n v, (depth v <= n)%nat -> ok v = true -> forallb inline (json_enc b v) = true.
Proof.
  induction n as [|n IH]; intros v Hd Ho; [destruct v; cbn in Hd; lia|].
  assert (Struct : forall l, (depth (GStruct l) <= S n)%nat -> ok (GStruct l) = true -> forallb inline (json_enc b (GStruct l)) = true).
  { intros l Hdl Hol. cbn [ok json_enc] in *. unfold json_object. rewrite !forallb_app. change (forallb inline (B "{")) with true. change (forallb inline (B "}")) with true. rewrite andb_true_r. cbn [andb].
    apply inline_join; [reflexivity|]. rewrite map_map. apply Forall_forall. intros x Hx. apply elem_of_list_In, in_map_iff in Hx as (f & <- & Hf). unfold json_field. cbn [fst snd].
    rewrite !forallb_app, inline_string. change (forallb inline (B ":")) with true. cbn [andb]. rewrite forallb_forall in Hol. apply IH; [apply (depth_fields l n Hdl), elem_of_list_In, Hf|apply Hol, Hf]. }
  destruct v as [|[]|z|[t|]|s|l|l|l]; cbn [ok] in Ho; try discriminate.
  1-3: vm_compute; reflexivity.
  - apply Z.ltb_lt in Ho. cbn [json_enc]. apply inline_number, dec_number, Ho.
  - cbn [json_enc default]. apply inline_number. apply number_text_chars in Ho as [Ho _]. exact Ho.
  - apply inline_string.
  - cbn [json_enc]. rewrite !forallb_app. change (forallb inline (B "[")) with true. change (forallb inline (B "]")) with true. rewrite andb_true_r. cbn [andb].
    apply inline_join; [reflexivity|]. apply Forall_forall. intros x Hx. apply elem_of_list_In, in_map_iff in Hx as (f & <- & Hf).
    rewrite forallb_forall in Ho. apply IH; [apply (depth_list l n Hd), elem_of_list_In, Hf|apply Ho, Hf].
  - apply Struct; assumption.
  - rewrite enc_map. apply Struct; [rewrite depth_sort; exact Hd|]. cbn [ok]. apply ok_sort, Ho.
Qed.

(** ** Members *)
Lemma str_ok s : a_string s (jval (GString s)).
Proof. eexists. split; [reflexivity|apply repl_replaced]. Qed.
Lemma int_ok v : int64 v -> an_int v (jval (GInt v)).
Proof. intros H. eexists. split; [reflexivity|]. apply dec_read, int64_abs, H. Qed.
Lemma members_ok l fs : Forall2 (fun m f => repl (fst f) = fst m /\ snd m (jval (snd f))) l fs -> members l (jval (GStruct fs)).
Proof. intros H. eexists. split; [reflexivity|]. rewrite map_map. apply Forall2_map_r. eapply Forall2_impl; [exact H|]. intros m f [E P]. cbn. auto. Qed.
Lemma array_ok {A} (p : A -> json -> Prop) (g : A -> gov) l : (forall a, a ∈ l -> p a (jval (g a))) -> an_array p l (jval (GSlice (map g l))).
Proof. intros H. eexists. split; [reflexivity|]. rewrite map_map. apply Forall2_map_self, H. Qed.
Lemma map_ok {A} (p : A -> json -> Prop) (g : A -> gov) m : NoDup (map fst m) -> (forall e, e ∈ m -> p (snd e) (jval (g (snd e)))) ->
  a_map p m (jval (GMap (map (fun e => (fst e, g (snd e))) m))).
Proof.
  intros Hn H. exists (isort key_less m). rewrite jval_map, isort_fields. eexists. split; [apply isort_perm|]. split; [apply key_sorted, Hn|]. split; [reflexivity|].
  rewrite !map_map. apply Forall2_map_self. intros e He. cbn [fst snd]. split; [apply repl_replaced|]. apply H. rewrite isort_perm in He. exact He.
Qed.
Lemma int_map_ok m : NoDup (map fst m) -> Forall (fun e => int64 (snd e)) m -> a_map an_int m (jval (int_map m)).
Proof. intros Hn H. apply map_ok; [exact Hn|]. intros e He. rewrite Forall_forall in H. apply int_ok, H, He. Qed.
Lemma int_map_proper m : NoDup (map fst m) -> Forall (fun e => int64 (snd e)) m -> proper (int_map m).
Proof.
  intros Hn H. constructor; [rewrite map_map; exact Hn|]. rewrite Forall_forall in H. apply Forall_forall. intros f Hf. apply elem_of_list_In, in_map_iff in Hf as (e & <- & He).
  constructor. apply H, elem_of_list_In, He.
Qed.
Ltac fs := repeat apply Forall_cons_2; try apply Forall_nil_2; cbn [snd]; try (constructor; fail); try (constructor; assumption).
Ltac f2 := repeat apply Forall2_cons_2; try apply Forall2_nil_2; cbn [fst snd]; (split; [vm_compute; reflexivity|]); try apply str_ok; try (apply int_ok; assumption); try reflexivity.
Section docs.
  Context (table : Z -> bool) (short_del : bool) (other : list arg -> bytes).
  Lemma args_ok s : an_array a_literal (span_args table short_del other (js_args s)) (jval (args_value table short_del other s)).
  Proof.
    apply array_ok. intros t _. eexists. split; [reflexivity|]. rewrite repl_exact by apply (printable_utf8 table), quote_printable. apply go_quote_unquote.
  Qed.
  Lemma annotations_ok s : an_array an_annotation (js_annotations s) (jval (annotations_value s)).
  Proof. apply array_ok. intros a _. eexists _, _. split; [reflexivity|]. split; apply str_ok. Qed.
  Lemma common_ok s : proper_span s -> Forall2 (fun m f => repl (fst f) = fst m /\ snd m (jval (snd f))) (span_start s) (span_common s).
  Proof.
    intros (Hi & Hp & Ht & Hs). unfold span_start, span_common. apply Forall2_app; [f2|]. apply Forall2_app.
    - destruct (js_parent s) as [p|]; [|constructor]. specialize (Hp p eq_refl). f2.
    - f2; apply members_ok; f2.
  Qed.
  Lemma span_ok e : proper_span (fst e) -> int64 (snd e) -> span_object table short_del other e (jval (format_span table short_del other (fst e) (snd e))).
  Proof.
    intros H He. apply members_ok. apply Forall2_app; [apply common_ok, H|]. f2; [apply args_ok|apply annotations_ok].
  Qed.
  Lemma finished_ok s finish err panicked : proper_span s -> int64 finish ->
    finished_object table short_del other (s, finish, err, panicked) (jval (format_finished table short_del other s finish err panicked)).
  Proof.
    intros H He. apply members_ok. apply Forall2_app; [apply common_ok, H|]. f2; [apply args_ok|apply annotations_ok].
  Qed.
  Lemma args_proper s : proper (args_value table short_del other s).
  Proof. constructor. apply Forall_forall. intros x Hx. apply elem_of_list_In, in_map_iff in Hx as (t & <- & _). constructor. Qed.
  Lemma annotations_proper s : proper (annotations_value s).
  Proof. constructor. apply Forall_forall. intros x Hx. apply elem_of_list_In, in_map_iff in Hx as (t & <- & _). constructor. fs. Qed.
  Lemma common_proper s : proper_span s -> Forall (fun f => proper (snd f)) (span_common s).
  Proof.
    intros (Hi & Hp & Ht & Hs). unfold span_common. apply Forall_app_2; [fs|]. apply Forall_app_2.
    - destruct (js_parent s) as [p|]; [|constructor]. specialize (Hp p eq_refl). fs.
    - fs; constructor; fs.
  Qed.
  Lemma span_proper e : proper_span (fst e) -> int64 (snd e) -> proper (format_span table short_del other (fst e) (snd e)).
  Proof. intros H He. constructor. apply Forall_app_2; [apply common_proper, H|]. fs; [apply args_proper|apply annotations_proper]. Qed.
  Lemma finished_proper s finish err panicked : proper_span s -> int64 finish -> proper (format_finished table short_del other s finish err panicked).
  Proof. intros H He. constructor. apply Forall_app_2; [apply common_proper, H|]. fs; [apply args_proper|apply annotations_proper]. Qed.
End docs.

(** ** Functions *)
Lemma assign_keys {A} k (v : A) m : NoDup (map fst m) -> NoDup (map fst (assign k v m)) /\ (forall x, x ∈ map fst (assign k v m) -> x = k \/ x ∈ map fst m).
Proof.
  induction m as [|e m IH]; cbn [assign]; intros H.
  - split; [cbn; constructor; [intros X; inversion X|constructor]|]. cbn. intros x Hx. apply elem_of_list_singleton in Hx. auto.
  - cbn [map] in H. apply NoDup_cons in H as [He H]. destruct (beqb (fst e) k) eqn:E.
    + apply beqb_true in E. subst k. cbn [map fst]. split; [apply NoDup_cons; auto|]. auto.
    + cbn [map]. destruct (IH H) as [N K]. split.
      * apply NoDup_cons. split; [|exact N]. intros X. apply K in X as [X|X]; [|contradiction]. subst k. rewrite (proj2 (beqb_true _ _) eq_refl) in E. discriminate.
      * intros x Hx. apply elem_of_cons in Hx as [->|Hx]; [right; left|]. apply K in Hx as [->|Hx]; [auto|right; right; exact Hx].
Qed.
Lemma assign_in {A} k (v : A) m x y : NoDup (map fst m) -> (x, y) ∈ assign k v m <-> (x = k /\ y = v) \/ (x <> k /\ (x, y) ∈ m).
Proof.
  induction m as [|e m IH]; cbn [assign]; intros H.
  - rewrite elem_of_list_singleton, pair_equal_spec. split; [auto|]. intros [?|[_ X]]; [assumption|inversion X].
  - cbn [map] in H. apply NoDup_cons in H as [He H]. destruct (beqb (fst e) k) eqn:E.
    + apply beqb_true in E. subst k. rewrite !elem_of_cons, pair_equal_spec. split.
      * intros [?|X]; [auto|]. right. assert (x <> fst e) by (intros ->; apply He; apply elem_of_list_In, (in_map fst) with (x := (fst e, y)), elem_of_list_In, X). auto.
      * intros [?|[N [X|X]]]; [auto| |auto]. destruct e; cbn in *. congruence.
    + rewrite !elem_of_cons, IH by exact H. split.
      * intros [X|[?|[? ?]]]; [|auto|auto]. right. split; [intros Q; apply beqb_true in Q; rewrite <- X in E; cbn [fst] in E; congruence|auto].
      * intros [?|[N [X|X]]]; auto.
Qed.
Lemma quantiles_assigned l : assigned l (quantiles l).
Proof.
  unfold quantiles. induction l as [|e l IH] using rev_ind.
  - split; [constructor|]. intros k v. split; [intros X; inversion X|]. intros (l1 & l2 & E & _). destruct l1; discriminate.
  - rewrite fold_left_app. cbn [fold_left]. destruct IH as [N K]. set (m := fold_left _ l []) in *. split; [apply assign_keys, N|]. intros k v. rewrite assign_in by exact N. rewrite K. split.
    + intros [[-> ->]|[Ne (l1 & l2 & -> & Hk)]].
      * exists l, []. destruct e. split; [reflexivity|]. intros X. inversion X.
      * exists l1, (l2 ++ [e]). split; [rewrite <- app_assoc; reflexivity|]. rewrite map_app, elem_of_app. intros [X|X]; [contradiction|]. cbn in X. apply elem_of_list_singleton in X. contradiction.
    + intros (l1 & l2 & E & Hk). destruct l2 as [|f l2 _] using rev_ind.
      * apply app_inj_tail in E as [-> ->]. auto.
      * rewrite app_comm_cons, app_assoc in E. apply app_inj_tail in E as [-> ->]. rewrite map_app, elem_of_app in Hk. right. split.
        -- intros ->. apply Hk. right. cbn. left.
        -- exists l1, l2. auto.
Qed.
Lemma quantiles_int64 l : Forall (fun e => int64 (snd e)) l -> Forall (fun e => int64 (snd e)) (quantiles l).
Proof.
  rewrite !Forall_forall. intros H [k v] X. destruct (quantiles_assigned l) as [_ K]. apply K in X as (l1 & l2 & -> & _). apply (H (k, v)). apply elem_of_app. right. left.
Qed.
Lemma times_ok d : proper_dist d -> times_object d (quantiles (jd_query d)) (jval (format_duration d)).
Proof.
  intros (H1 & H2 & H3 & H4 & H5 & H6). apply members_ok. f2. apply int_map_ok; [apply quantiles_assigned|apply quantiles_int64, H6].
Qed.
Lemma times_proper d : proper_dist d -> proper (format_duration d).
Proof. intros (H1 & H2 & H3 & H4 & H5 & H6). constructor. fs. apply int_map_proper; [apply quantiles_assigned|apply quantiles_int64, H6]. Qed.
Lemma parents_fold l : forall e ids, fold_left add_parent l (e, ids) =
  (e || bool_decide (None ∈ l), match omap id l with [] => ids | q => Some (default [] ids ++ q) end).
Proof.
  induction l as [|[p|] l IH]; intros e ids; cbn [fold_left add_parent fst snd].
  - cbn. rewrite orb_false_r. reflexivity.
  - rewrite IH. change (omap id (Some p :: l)) with (p :: omap id l). f_equal.
    + f_equal. apply bool_decide_ext. rewrite elem_of_cons. split; [auto|]. intros [X|X]; [discriminate|exact X].
    + cbn [default id]. destruct (omap id l) as [|q qs]; cbn [default]; [reflexivity|]. rewrite <- app_assoc. reflexivity.
  - rewrite IH. change (omap id (None :: l)) with (omap id l). f_equal.
    rewrite (bool_decide_eq_true_2 (None ∈ None :: l)) by left. rewrite orb_true_r. reflexivity.
Qed.
Lemma format_func_eq f : format_func f =
  GStruct [(B "id", GInt (jf_id f)); (B "parent_ids", match omap id (jf_parents f) with [] => GNil | l => GSlice (map GInt l) end);
           (B "package", GString (jf_package f)); (B "name", GString (jf_name f)); (B "current", GInt (jf_current f)); (B "highwater", GInt (jf_highwater f));
           (B "success", GInt (jf_success f)); (B "panics", GInt (jf_panics f)); (B "entry", GBool (bool_decide (None ∈ jf_parents f))); (B "errors", int_map (jf_errors f));
           (B "success_times", format_duration (jf_stimes f)); (B "failure_times", format_duration (jf_ftimes f))].
Proof. unfold format_func. rewrite parents_fold. cbn [default app orb]. destruct (omap id (jf_parents f)); reflexivity. Qed.
Lemma parent_int f p : proper_func f -> p ∈ omap id (jf_parents f) -> int64 p.
Proof. intros (_ & Hp & _) H. apply elem_of_list_omap in H as (x & Hx & E). cbn in E. subst x. apply Hp, Hx. Qed.
Lemma func_ok f : proper_func f -> func_object f (quantiles (jd_query (jf_stimes f))) (quantiles (jd_query (jf_ftimes f))) (jval (format_func f)).
Proof.
  intros H. pose proof (parent_int f) as Hq. destruct H as (H1 & Hp & H2 & H3 & H4 & H5 & H6 & H7 & H8 & H9). rewrite format_func_eq. apply members_ok. f2.
  - unfold parent_list. specialize (Hq) as Hq'. destruct (omap id (jf_parents f)) as [|p ps] eqn:E; [reflexivity|]. apply array_ok. intros q Hin. apply int_ok.
    apply Hq'; [unfold proper_func; auto 20|]. exact Hin.
  - apply int_map_ok; assumption.
  - apply times_ok; assumption.
  - apply times_ok; assumption.
Qed.
Lemma func_proper f : proper_func f -> proper (format_func f).
Proof.
  intros H. pose proof (fun p => parent_int f p H) as Hq. destruct H as (H1 & Hp & H2 & H3 & H4 & H5 & H6 & H7 & H8 & H9). rewrite format_func_eq. constructor. fs.
  - destruct (omap id (jf_parents f)) as [|p ps] eqn:E; [constructor|]. constructor. apply Forall_forall. intros x Hx. apply elem_of_list_In, in_map_iff in Hx as (q & <- & Hin). constructor. apply Hq, elem_of_list_In, Hin.
  - apply int_map_proper; assumption.
  - apply times_proper; assumption.
  - apply times_proper; assumption.
Qed.

(** ** Lists *)
Lemma list_document b vs : Forall proper vs -> forall faults s, exists chunks, concat chunks = json_text (map (json_enc b) vs) /\ delivered faults s chunks (json_list b faults s vs).
Proof.
  intros H faults s. unfold json_list. replace (map (marshal b) vs) with (map Some (map (json_enc b) vs)); [apply write_list_ok|].
  rewrite map_map. apply map_ext_in. intros v Hv. rewrite Forall_forall in H. symmetry. apply proper_marshal, H, elem_of_list_In, Hv.
Qed.
