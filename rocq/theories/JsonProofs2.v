(** Proofs for C79-C80: whole values. *)
From Coq Require Import Sorted.
From Verif Require Import Base BaseProofs PresentModel PresentSpec LayoutModel SvgModel SvgSpec SvgProofs SvgNumProofs ArgsModel ArgsSpec ArgsProofs JsonModel JsonSpec JsonProofs.
Local Open Scope Z_scope.
Local Arguments B : simpl never.

(** ** What the reader gets *)
Fixpoint jval (v : gov) : json :=
  match v with
  | GNil => JNull
  | GBool b => JBool b
  | GInt v => JNumber (dec v)
  | GFloat t => JNumber (default [] t)
  | GString s => JString (repl s)
  | GSlice l => JArray (map jval l)
  | GStruct l => JObject (map (fun e => (repl (fst e), snd e)) (map (fun f => (fst f, jval (snd f))) l))
  | GMap l => JObject (map (fun e => (repl (fst e), snd e)) (isort key_less (map (fun f => (fst f, jval (snd f))) l)))
  end.
Fixpoint ok (v : gov) : bool :=
  match v with
  | GInt v => Z.abs v <? 10 ^ 20
  | GFloat t => match t with Some t => number_text t | None => false end
  | GSlice l => forallb ok l
  | GStruct l | GMap l => forallb (fun f => ok (snd f)) l
  | _ => true
  end.
Definition maxl (l : list nat) : nat := fold_right Nat.max 0%nat l.
Fixpoint depth (v : gov) : nat :=
  match v with
  | GSlice l => S (maxl (map depth l))
  | GStruct l | GMap l => S (maxl (map (fun f => depth (snd f)) l))
  | _ => 1%nat
  end.
Lemma maxl_le l n : (maxl l <= n)%nat -> Forall (fun x => (x <= n)%nat) l.
Proof. induction l as [|x l IH]; intros H; [constructor|]. change (maxl (x :: l)) with (Nat.max x (maxl l)) in H. constructor; [lia|apply IH; lia]. Qed.
Lemma maxl_lub l n : Forall (fun x => (x <= n)%nat) l -> (maxl l <= n)%nat.
Proof. unfold maxl. induction 1; cbn; lia. Qed.
Lemma ok_supported : forall n v, (depth v <= n)%nat -> ok v = true -> supported v = true.
Proof.
  induction n as [|n IH]; intros v Hd H; destruct v as [| | |t| |l|l|l]; cbn [depth] in Hd; try (exfalso; lia); try reflexivity; cbn [ok supported] in *.
  - destruct t; [reflexivity|discriminate].
  - apply forallb_forall. intros x Hx. rewrite forallb_forall in H. apply IH; [|auto]. apply le_S_n, maxl_le in Hd. rewrite Forall_forall in Hd. apply Hd.
    apply elem_of_list_In, in_map, Hx.
  - apply forallb_forall. intros x Hx. rewrite forallb_forall in H. apply IH; [|auto]. apply le_S_n, maxl_le in Hd. rewrite Forall_forall in Hd. apply Hd.
    apply elem_of_list_In, (in_map (fun f => depth (snd f))), Hx.
  - apply forallb_forall. intros x Hx. rewrite forallb_forall in H. apply IH; [|auto]. apply le_S_n, maxl_le in Hd. rewrite Forall_forall in Hd. apply Hd.
    apply elem_of_list_In, (in_map (fun f => depth (snd f))), Hx.
Qed.

(** ** Sorting *)
Lemma sinsert_map {A C} (la : A -> A -> bool) (lc : C -> C -> bool) (g : A -> C) (H : forall x y, lc (g x) (g y) = la x y) x l :
  sinsert lc (g x) (map g l) = map g (sinsert la x l).
Proof. induction l as [|y l IH]; [reflexivity|]. cbn. rewrite H. destruct (la x y); [reflexivity|]. rewrite IH. reflexivity. Qed.
Lemma isort_map {A C} (la : A -> A -> bool) (lc : C -> C -> bool) (g : A -> C) (H : forall x y, lc (g x) (g y) = la x y) l :
  isort lc (map g l) = map g (isort la l).
Proof. induction l as [|x l IH]; [reflexivity|]. cbn. rewrite IH. apply sinsert_map, H. Qed.
Lemma isort_fields {A C} (g : A -> C) l : isort key_less (map (fun f : bytes * A => (fst f, g (snd f))) l) = map (fun f => (fst f, g (snd f))) (isort key_less l).
Proof. apply isort_map. reflexivity. Qed.
Lemma key_sorted {A} (l : list (bytes * A)) : NoDup (map fst l) -> StronglySorted (fun x y => bytes_lt (fst x) (fst y)) (isort key_less l).
Proof.
  intros Hnd.
  assert (T : forall x y z : bytes * A, key_less y x = false -> key_less z y = false -> key_less z x = false).
  { unfold key_less. intros x y z H1 H2. destruct (bytes_ltb z.1 x.1) eqn:E; [|reflexivity]. destruct (bytes_ltb x.1 y.1) eqn:E2.
    - pose proof (bytes_ltb_trans _ _ _ E E2). congruence.
    - pose proof (bytes_ltb_total _ _ E2 H1) as He. rewrite He in E. congruence. }
  assert (As : forall x y : bytes * A, key_less x y = true -> key_less y x = false) by (intros x y; apply bytes_ltb_asym).
  pose proof (isort_sorted key_less T As l) as Hs. assert (Hnd' : NoDup (map fst (isort key_less l))) by (rewrite isort_perm; assumption).
  induction (isort key_less l) as [|x m IH]; [constructor|]. apply StronglySorted_inv in Hs as [Hs Hf]. cbn in Hnd'. apply NoDup_cons in Hnd' as [Hx Hnd'].
  constructor; [auto|]. rewrite Forall_forall in *. intros y Hy. specialize (Hf y Hy). unfold nolater, key_less in Hf. unfold bytes_lt.
  destruct (bytes_ltb x.1 y.1) eqn:E; [reflexivity|]. destruct Hx. rewrite (bytes_ltb_total _ _ E Hf). apply elem_of_list_In, in_map, elem_of_list_In, Hy.
Qed.

(** ** Lists *)
Lemma skip_app ws s : forallb json_space ws = true -> skip_space (ws ++ s) = skip_space s.
Proof. induction ws as [|c ws IH]; intros H; [reflexivity|]. cbn in H. apply andb_prop in H as [Hc H]. cbn [app skip_space]. rewrite Hc. apply IH, H. Qed.
Lemma skip_stop c s : json_space c = false -> skip_space (c :: s) = c :: s.
Proof. intros H. cbn. rewrite H. reflexivity. Qed.
(** After spaces, something that is neither space nor one of these. *)
Definition starts (not : list Z) (t : bytes) : Prop := exists ws c x, t = ws ++ c :: x /\ forallb json_space ws = true /\ json_space c = false /\ byte c ∉ not.
Definition follows (close : ascii) (rest : bytes) : Prop := exists c x, rest = c :: x /\ (byte c = 44 \/ c = close).
Section items.
  Context {A C : Type} (read : bytes -> option (C * bytes)) (text : A -> bytes) (val : A -> C) (good : A -> Prop) (close : ascii).
  Hypothesis read_ok : forall a rest, good a -> follows close rest -> read (text a ++ rest) = Some (val a, rest).
  Hypothesis text_ok : forall a, good a -> starts [byte close] (text a).
  Hypothesis close_ok : json_space close = false /\ byte close <> 44.
  Lemma join_cons a b l : join (B ",") (map text (a :: b :: l)) = text a ++ B "," ++ join (B ",") (map text (b :: l)).
  Proof. reflexivity. Qed.
  Lemma read_items_ok l : forall fuel rest, l <> [] -> Forall good l -> (length l <= fuel)%nat ->
    read_items read (byte close) fuel (join (B ",") (map text l) ++ close :: rest) = Some (map val l, rest).
  Proof.
    destruct close_ok as [Cs Cc]. induction l as [|a l IH]; intros fuel rest N F Hf; [contradiction|]. inversion F; subst. destruct fuel as [|fuel]; [cbn in Hf; lia|].
    destruct l as [|b l].
    - cbn [map join read_items]. rewrite read_ok; [|assumption|exists close, rest; auto]. rewrite skip_stop by exact Cs. apply Z.eqb_neq in Cc. rewrite Cc, Z.eqb_refl. reflexivity.
    - rewrite join_cons. rewrite <- !app_assoc. cbn [read_items]. rewrite read_ok; [|assumption|].
      + change (B "," ++ ?y) with (","%char :: y). rewrite skip_stop by reflexivity. change (byte "," =? 44) with true. cbv iota. rewrite IH; [reflexivity|discriminate|assumption|cbn in *; lia].
      + eexists _, _. split; [reflexivity|]. left. reflexivity.
  Qed.
  Lemma join_starts a l : good a -> starts [byte close] (join (B ",") (map text (a :: l))).
  Proof.
    intros H. destruct (text_ok a H) as (ws & c & x & E & Hw & Hc & Hn). destruct l as [|b l].
    - exists ws, c, x. cbn. auto.
    - rewrite join_cons. exists ws, c, (x ++ B "," ++ join (B ",") (map text (b :: l))). rewrite E, <- app_assoc. auto.
  Qed.
  Lemma join_count l : Forall good l -> (length l <= length (join (B ",") (map text l)))%nat.
  Proof.
    induction 1 as [|a l Ha Hl IH]; [cbn; lia|]. destruct (text_ok a Ha) as (ws & c & x & E & _).
    assert (L : (1 <= length (text a))%nat) by (rewrite E, app_length; cbn; lia).
    destruct l as [|b l]; [cbn in *; lia|]. rewrite join_cons, !app_length. change (length (B ",")) with 1%nat. cbn [length] in *. lia.
  Qed.
  Lemma read_list_of_ok l rest : Forall good l ->
    read_list_of read (byte close) (join (B ",") (map text l) ++ close :: rest) = Some (map val l, rest).
  Proof.
    intros F. destruct close_ok as [Cs Cc]. unfold read_list_of. destruct l as [|a l].
    - cbn [map join app]. rewrite skip_stop by exact Cs. rewrite Z.eqb_refl. reflexivity.
    - inversion F; subst. destruct (join_starts a l ltac:(assumption)) as (ws & c & x & E & Hw & Hc & Hn).
      assert (S : skip_space (join (B ",") (map text (a :: l)) ++ close :: rest) = c :: x ++ close :: rest).
      { rewrite E, <- app_assoc, skip_app by exact Hw. apply skip_stop. exact Hc. }
      rewrite S. destruct (Z.eqb_spec (byte c) (byte close)) as [Eq|_]; [exfalso; apply Hn; rewrite Eq; left|].
      apply read_items_ok; [discriminate|exact F|]. rewrite app_length. pose proof (join_count (a :: l) F). lia.
  Qed.
End items.

Section values.
  Context (b : bool).
  Local Notation enc := (json_enc b).
  Lemma enc_map l : enc (GMap l) = enc (GStruct (isort key_less l)).
  Proof. cbn [json_enc]. rewrite isort_fields. reflexivity. Qed.
  Lemma jval_map l : jval (GMap l) = jval (GStruct (isort key_less l)).
  Proof. cbn [jval]. rewrite isort_fields. reflexivity. Qed.
  Lemma ok_sort l : forallb (fun f => ok (snd f)) l = true -> forallb (fun f => ok (snd f)) (isort key_less l) = true.
  Proof. intros H. rewrite forallb_forall in *. intros x Hx. apply H. apply elem_of_list_In. rewrite <- (isort_perm key_less l). apply elem_of_list_In, Hx. Qed.
  Lemma maxl_perm l l' : l ≡ₚ l' -> maxl l = maxl l'.
  Proof. unfold maxl. induction 1; cbn; lia. Qed.
  Lemma depth_sort l : depth (GStruct (isort key_less l)) = depth (GMap l).
  Proof. cbn [depth]. f_equal. apply maxl_perm. apply Permutation_map, isort_perm. Qed.

  Definition nospace (c : ascii) : Prop := json_space c = false /\ byte c <> 93 /\ byte c <> 125.
  Lemma digit_nospace c : is_digit c = true \/ byte c = 45 -> nospace c.
  Proof.
    unfold nospace, json_space, is_digit. intros [H|H].
    - apply andb_prop in H as [A C]. apply Z.leb_le in A, C. split; [|lia]. rewrite !orb_false_iff, !Z.eqb_neq. lia.
    - rewrite H. repeat split; discriminate.
  Qed.
  Lemma enc_head v : ok v = true -> exists c x, enc v = c :: x /\ nospace c.
  Proof.
    intros H. destruct v as [|[]|z|[t|]|s|l|l|l]; cbn [json_enc ok] in *; try discriminate; try (eexists _, _; split; [reflexivity|]; repeat split; discriminate).
    - apply Z.ltb_lt in H. destruct (dec_number z H) as [_ N]. apply number_text_chars in N as (_ & c & x & E & Hc). rewrite E. exists c, x. split; [reflexivity|]. apply digit_nospace, Hc.
    - apply number_text_chars in H as (_ & c & x & -> & Hc). exists c, x. split; [reflexivity|]. apply digit_nospace, Hc.
  Qed.
  Lemma enc_starts v : ok v = true -> starts [93] (enc v).
  Proof.
    intros H. destruct (enc_head v H) as (c & x & -> & Hs & N & _). exists [], c, x. split; [reflexivity|]. split; [reflexivity|]. split; [exact Hs|].
    rewrite elem_of_list_singleton. exact N.
  Qed.
  (** The reader of numbers stops there. *)
  Definition stop (rest : bytes) : Prop := match rest with c :: _ => number_char c = false | [] => True end.
  Lemma number_read n t rest : number_text t = true -> stop rest -> read_value (S n) (t ++ rest) = Some (JNumber t, rest).
  Proof.
    intros H Hr. destruct (number_text_chars t H) as (F & c & x & E & Hc). pose proof (digit_nospace c Hc) as (Hs & N1 & N2).
    assert (S : skip_space (t ++ rest) = t ++ rest) by (rewrite E; apply skip_stop, Hs). cbn [read_value]. rewrite S. pose proof E as E0. rewrite E. cbn [app]. rewrite app_comm_cons, <- E.
    assert (R : byte c = 45 \/ 48 <= byte c <= 57).
    { destruct Hc as [Hc|Hc]; [|auto]. right. unfold is_digit in Hc. apply andb_prop in Hc as [A C]. apply Z.leb_le in A, C. lia. }
    destruct (Z.eqb_spec (byte c) 34); [lia|]. destruct (Z.eqb_spec (byte c) 91); [lia|]. destruct (Z.eqb_spec (byte c) 123); [lia|]. cbv zeta.
    assert (St : forall p q, byte p <> byte c -> strip (p :: q) (t ++ rest) = None).
    { intros p q Hp. rewrite E0. cbn. destruct (Ascii.eqb_spec p c) as [->|]; [contradiction|reflexivity]. }
    change (B "null") with ("n"%char :: B "ull"). change (B "true") with ("t"%char :: B "rue"). change (B "false") with ("f"%char :: B "alse").
    rewrite (St "n"%char) by (change (byte "n") with 110; lia). rewrite (St "t"%char) by (change (byte "t") with 116; lia). rewrite (St "f"%char) by (change (byte "f") with 102; lia). rewrite span_of_app by assumption. rewrite H. reflexivity.
  Qed.
  Lemma follows_stop close rest : number_char close = false -> follows close rest -> stop rest.
  Proof.
    intros Hc (c & x & -> & [E| ->]); [|exact Hc]. cbn. unfold number_char, is_digit. rewrite E. reflexivity.
  Qed.
  Lemma member_read read k v rest t : (forall r, stop r -> read (t ++ r) = Some (v, r)) -> stop rest ->
    read_member read (json_field b (k, t) ++ rest) = Some (repl k, v, rest).
  Proof.
    intros R Hr. unfold json_field. cbn [fst snd]. rewrite <- !app_assoc. destruct (rs_json b k (B ":" ++ t ++ rest)) as (x & E & Rx). rewrite E. unfold read_member.
    rewrite skip_stop by reflexivity. change (byte quote =? 34) with true. cbv iota. rewrite Rx. change (B ":" ++ t ++ rest) with (":"%char :: t ++ rest).
    rewrite skip_stop by reflexivity. change (byte ":" =? 58) with true. cbv iota. rewrite R by exact Hr. reflexivity.
  Qed.
  Lemma field_starts f : starts [125] (json_field b f).
  Proof. unfold json_field, json_string. exists [], quote. eexists. rewrite <- !app_assoc. split; [reflexivity|]. split; [reflexivity|]. split; [reflexivity|]. rewrite elem_of_list_singleton. discriminate. Qed.
  Lemma value_read : forall n v, (depth v <= n)%nat -> ok v = true -> forall rest, stop rest -> read_value n (enc v ++ rest) = Some (jval v, rest).
  Proof.
    induction n as [|n IH]; intros v Hd Ho rest Hr.
    { destruct v; cbn in Hd; lia. }
    assert (Struct : forall l, (depth (GStruct l) <= S n)%nat -> ok (GStruct l) = true -> read_value (S n) (enc (GStruct l) ++ rest) = Some (jval (GStruct l), rest)).
    { intros l Hdl Hol. cbn [json_enc jval]. unfold json_object. rewrite <- !app_assoc. cbn [read_value]. change (B "{" ++ ?y) with ("{"%char :: y). rewrite skip_stop by reflexivity.
      change (byte "{" =? 34) with false. change (byte "{" =? 91) with false. change (byte "{" =? 123) with true. cbv iota.
      change (B "}" ++ rest) with ("}"%char :: rest). change 125 with (byte "}"). rewrite !map_map. cbn [fst snd].
      rewrite (read_list_of_ok _ (fun x => json_field b (fst x, enc (snd x))) (fun x => (repl (fst x), jval (snd x))) (fun x => ok (snd x) = true /\ (depth (snd x) <= n)%nat)).
      - reflexivity.
      - intros a r [Ha Hda] Hf. apply member_read; [|apply (follows_stop "}"%char); [reflexivity|exact Hf]]. intros r' Hr'. apply IH; assumption.
      - intros a _. apply field_starts.
      - split; [reflexivity|discriminate].
      - cbn [ok] in Hol. rewrite forallb_forall in Hol. cbn [depth] in Hdl. apply le_S_n, maxl_le in Hdl. rewrite Forall_forall in Hdl. apply Forall_forall. intros x Hx. split.
        + apply Hol, elem_of_list_In, Hx.
        + apply Hdl. apply elem_of_list_In, (in_map (fun f => depth (snd f))), elem_of_list_In, Hx. }
    destruct v as [|[]|z|[t|]|s|l|l|l]; cbn [ok] in Ho; try discriminate; try reflexivity.
    - apply Z.ltb_lt in Ho. cbn [json_enc jval]. apply number_read; [|exact Hr]. apply dec_number, Ho.
    - cbn [json_enc jval default]. apply number_read; assumption.
    - cbn [json_enc jval]. destruct (rs_json b s rest) as (x & E & Rx). rewrite E. cbn [read_value]. rewrite skip_stop by reflexivity. change (byte quote =? 34) with true. cbv iota. rewrite Rx. reflexivity.
    - cbn [json_enc jval]. rewrite <- !app_assoc. cbn [read_value]. change (B "[" ++ ?y) with ("["%char :: y). rewrite skip_stop by reflexivity.
      change (byte "[" =? 34) with false. change (byte "[" =? 91) with true. cbv iota. change (B "]" ++ rest) with ("]"%char :: rest). change 93 with (byte "]").
      rewrite (read_list_of_ok _ enc jval (fun x => ok x = true /\ (depth x <= n)%nat)).
      + reflexivity.
      + intros a r [Ha Hda] Hf. apply IH; try assumption. apply (follows_stop "]"%char); [reflexivity|exact Hf].
      + intros a [Ha _]. apply enc_starts, Ha.
      + split; [reflexivity|discriminate].
      + rewrite forallb_forall in Ho. cbn [depth] in Hd. apply le_S_n, maxl_le in Hd. rewrite Forall_forall in Hd. apply Forall_forall. intros x Hx. split.
        * apply Ho, elem_of_list_In, Hx.
        * apply Hd. apply elem_of_list_In, in_map, elem_of_list_In, Hx.
    - apply Struct; assumption.
    - rewrite enc_map, jval_map. apply Struct; [rewrite depth_sort; exact Hd|]. cbn [ok]. apply ok_sort, Ho.
  Qed.

  (** ** Lengths and UTF-8 *)
  Lemma join_in_length sep x l : x ∈ l -> (length x <= length (join sep l))%nat.
  Proof.
    induction l as [|y l IH]; intros H; [inversion H|]. destruct l as [|z l].
    - apply elem_of_list_singleton in H as ->. cbn. lia.
    - change (join sep (y :: z :: l)) with (y ++ sep ++ join sep (z :: l)). rewrite !app_length. inversion H; subst; [lia|]. specialize (IH ltac:(assumption)). lia.
  Qed.
  Lemma depth_length : forall n v, (depth v <= n)%nat -> ok v = true -> (depth v <= length (enc v))%nat.
  Proof.
    assert (One : forall v, ok v = true -> (1 <= length (enc v))%nat) by (intros v H; destruct (enc_head v H) as (c & x & -> & _); cbn; lia).
    induction n as [|n IH]; intros v Hd Ho; [destruct v; cbn in Hd; lia|].
    assert (Struct : forall l, (depth (GStruct l) <= S n)%nat -> ok (GStruct l) = true -> (depth (GStruct l) <= length (enc (GStruct l)))%nat).
    { intros l Hdl Hol. cbn [depth ok json_enc] in *. unfold json_object. rewrite !app_length. change (length (B "{")) with 1%nat. change (length (B "}")) with 1%nat.
      cut (maxl (map (fun f => depth (snd f)) l) <= length (join (B ",") (map (json_field b) (map (fun f => (fst f, enc (snd f))) l))))%nat; [lia|].
      apply maxl_lub, Forall_forall. intros x Hx. apply elem_of_list_In, in_map_iff in Hx as (f & <- & Hf). apply le_S_n, maxl_le in Hdl. rewrite Forall_forall in Hdl.
      rewrite forallb_forall in Hol. transitivity (length (json_field b (fst f, enc (snd f)))).
      - unfold json_field. cbn [fst snd]. rewrite !app_length. pose proof (IH (snd f) (Hdl _ ltac:(apply elem_of_list_In, (in_map (fun f => depth (snd f))), Hf)) (Hol _ Hf)). lia.
      - apply join_in_length. apply elem_of_list_In, in_map, (in_map (fun f => (fst f, enc (snd f)))), Hf. }
    destruct v as [| | | | |l|l|l]; try (cbn [depth]; apply One, Ho).
    - cbn [depth ok json_enc] in *. rewrite !app_length. change (length (B "[")) with 1%nat. change (length (B "]")) with 1%nat.
      cut (maxl (map depth l) <= length (join (B ",") (map enc l)))%nat; [lia|].
      apply maxl_lub, Forall_forall. intros x Hx. apply elem_of_list_In, in_map_iff in Hx as (f & <- & Hf). apply le_S_n, maxl_le in Hd. rewrite Forall_forall in Hd.
      rewrite forallb_forall in Ho. transitivity (length (enc f)); [apply IH; [apply Hd, elem_of_list_In, in_map, Hf|apply Ho, Hf]|]. apply join_in_length. apply elem_of_list_In, in_map, Hf.
    - apply Struct; assumption.
    - rewrite <- depth_sort in *. rewrite enc_map. apply Struct; [exact Hd|]. cbn [ok]. apply ok_sort, Ho.
  Qed.
  Lemma depth_enc v : ok v = true -> (depth v <= length (enc v))%nat.
  Proof. apply (depth_length (depth v)). lia. Qed.
  Lemma join_utf8 sep l : utf8_text sep -> Forall utf8_text l -> utf8_text (join sep l).
  Proof.
    intros Hs. induction 1 as [|a l Ha Hl IH]; [apply utf8_text_nil|]. destruct l as [|c l]; [exact Ha|].
    change (join sep (a :: c :: l)) with (a ++ sep ++ join sep (c :: l)). apply utf8_text_app; [exact Ha|]. apply utf8_text_app; [exact Hs|exact IH].
  Qed.
  Lemma number_utf8 t : forallb number_char t = true -> utf8_text t.
  Proof.
    intros H. apply utf8_text_ascii. rewrite forallb_forall in *. intros c Hc. specialize (H c Hc). apply Z.ltb_lt. unfold number_char, is_digit in H.
    destruct (Z.leb_spec (byte c) 57); [lia|]. rewrite andb_false_r in H. destruct (Z.eqb_spec (byte c) 43), (Z.eqb_spec (byte c) 45), (Z.eqb_spec (byte c) 46), (Z.eqb_spec (byte c) 101), (Z.eqb_spec (byte c) 69); try lia; discriminate.
  Qed.
  Lemma enc_utf8 : forall n v, (depth v <= n)%nat -> ok v = true -> utf8_text (enc v).
  Proof.
    induction n as [|n IH]; intros v Hd Ho; [destruct v; cbn in Hd; lia|].
    assert (Struct : forall l, (depth (GStruct l) <= S n)%nat -> ok (GStruct l) = true -> utf8_text (enc (GStruct l))).
    { intros l Hdl Hol. cbn [depth ok json_enc] in *. unfold json_object. apply utf8_text_app; [asc|]. apply utf8_text_app; [|asc]. apply join_utf8; [asc|].
      rewrite map_map. apply Forall_forall. intros x Hx. apply elem_of_list_In, in_map_iff in Hx as (f & <- & Hf). unfold json_field. cbn [fst snd].
      apply utf8_text_app; [apply json_string_utf8|]. apply utf8_text_app; [asc|]. apply le_S_n, maxl_le in Hdl. rewrite Forall_forall in Hdl. rewrite forallb_forall in Hol.
      apply IH; [apply Hdl, elem_of_list_In, (in_map (fun f => depth (snd f))), Hf|apply Hol, Hf]. }
    destruct v as [|[]|z|[t|]|s|l|l|l]; cbn [ok] in Ho; try discriminate.
    1-3: asc.
    - apply Z.ltb_lt in Ho. cbn [json_enc]. apply number_utf8, dec_number, Ho.
    - cbn [json_enc default]. apply number_utf8. apply number_text_chars in Ho as [Ho _]. exact Ho.
    - apply json_string_utf8.
    - cbn [json_enc depth] in *. apply utf8_text_app; [asc|]. apply utf8_text_app; [|asc]. apply join_utf8; [asc|]. apply Forall_forall. intros x Hx. apply elem_of_list_In, in_map_iff in Hx as (f & <- & Hf).
      apply le_S_n, maxl_le in Hd. rewrite Forall_forall in Hd. rewrite forallb_forall in Ho. apply IH; [apply Hd, elem_of_list_In, in_map, Hf|apply Ho, Hf].
    - apply Struct; assumption.
    - rewrite enc_map. apply Struct; [rewrite depth_sort; exact Hd|]. cbn [ok]. apply ok_sort, Ho.
  Qed.

  (** ** Documents *)
  Lemma enc_json v : ok v = true -> is_json (enc v) (jval v).
  Proof.
    intros H. split; [|apply (enc_utf8 (depth v)); [lia|exact H]]. unfold read_json. pose proof (value_read (length (enc v)) v (depth_enc v H) H [] I) as R. rewrite app_nil_r in R. rewrite R. reflexivity.
  Qed.
  Lemma document_read k vs : forallb ok vs = true -> is_json (repeat newline k ++ json_text (map enc vs)) (JArray (map jval vs)).
  Proof.
    intros H. assert (Ws : forallb json_space (repeat newline k) = true) by (induction k; [reflexivity|cbn; assumption]).
    set (text := fun v => [newline] ++ B " " ++ enc v).
    assert (E : json_text (map enc vs) = B "[" ++ join (B ",") (map text vs) ++ "]"%char :: [newline]) by (unfold json_text, json_open; rewrite map_map, <- app_assoc; reflexivity).
    rewrite E. split.
    - unfold read_json. set (doc := repeat newline k ++ B "[" ++ join (B ",") (map text vs) ++ "]"%char :: [newline]).
      assert (L : (S (length (join (B ",") (map text vs))) <= length doc)%nat).
      { subst doc. rewrite !app_length. change (length (B "[")) with 1%nat. lia. }
      destruct (length doc) as [|n] eqn:En; [lia|]. subst doc. cbn [read_value]. rewrite skip_app by exact Ws. change (B "[" ++ ?y) with ("["%char :: y). rewrite skip_stop by reflexivity.
      change (byte "[" =? 34) with false. change (byte "[" =? 91) with true. cbv iota. change 93 with (byte "]").
      rewrite (read_list_of_ok _ text jval (fun x => ok x = true /\ (depth x <= n)%nat)).
      + reflexivity.
      + intros a r [Ha Hda] Hf. subst text. cbv beta. rewrite <- !app_assoc. destruct n as [|n]; [destruct a; cbn in Hda; lia|].
        assert (Sk : forall m x, read_value (S m) ([newline] ++ B " " ++ x) = read_value (S m) x) by reflexivity. rewrite Sk. apply value_read; [exact Hda|exact Ha|].
        apply (follows_stop "]"%char); [reflexivity|exact Hf].
      + intros a [Ha _]. destruct (enc_starts a Ha) as (ws & c & x & Ea & Hw & Hc & Hn). exists ([newline] ++ B " " ++ ws), c, x. subst text. cbv beta. rewrite Ea, <- !app_assoc.
        split; [reflexivity|]. split; [cbn; exact Hw|]. split; [exact Hc|exact Hn].
      + split; [reflexivity|discriminate].
      + rewrite forallb_forall in H. apply Forall_forall. intros x Hx. apply elem_of_list_In in Hx. split; [apply H, Hx|].
        pose proof (depth_enc x (H x Hx)). assert (length (text x) <= length (join (B ",") (map text vs)))%nat by (apply join_in_length, elem_of_list_In, in_map, Hx).
        subst text. cbv beta in *. rewrite !app_length in *. lia.
    - apply utf8_text_app; [apply utf8_text_ascii; clear; induction k; [reflexivity|cbn; assumption]|]. apply utf8_text_app; [asc|].
      apply utf8_text_app; [|asc]. apply join_utf8; [asc|]. apply Forall_forall. intros x Hx. apply elem_of_list_In, in_map_iff in Hx as (f & <- & Hf). subst text. cbv beta.
      apply utf8_text_app; [asc|]. apply utf8_text_app; [asc|]. rewrite forallb_forall in H. apply (enc_utf8 (depth f)); [lia|apply H, Hf].
  Qed.
End values.
