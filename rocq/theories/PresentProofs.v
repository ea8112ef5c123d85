(** Proofs about the reports of package present. *)
From Verif Require Import Base BaseProofs Strings Fval HttpModel HttpProofs PresentModel PresentSpec.
Open Scope Z_scope.
Local Arguments B : simpl never.

(** ** DOT labels *)
Definition bad_byte (c : ascii) : bool := Ascii.eqb c quote || Ascii.eqb c newline.
Fixpoint bs_ok (s : bytes) : bool :=
  match s with
  | [] => true
  | c :: s' => negb (bad_byte c) &&
      (if Ascii.eqb c backslash then match s' with d :: _ => Ascii.eqb d "l" | [] => false end else true) && bs_ok s'
  end.
Lemma dot_byte_ok c : bs_ok (dot_byte c) = true.
Proof.
  assert (A : forallb (fun c => bs_ok (dot_byte c)) all_bytes = true) by (vm_compute; reflexivity).
  rewrite forallb_forall in A. apply A, elem_of_list_In, all_bytes_elem.
Qed.
Lemma bs_ok_app s t : bs_ok s = true -> bs_ok t = true -> bs_ok (s ++ t) = true.
Proof.
  induction s as [|c s IH]; intros Hs Ht; [exact Ht|]. cbn [bs_ok app] in *. apply andb_prop in Hs as [Hs H3]. apply andb_prop in Hs as [H1 H2].
  rewrite H1, (IH H3 Ht). destruct (Ascii.eqb c backslash); [|reflexivity]. destruct s as [|d s]; [discriminate|]. cbn [app]. rewrite H2. reflexivity.
Qed.
Lemma escape_ok s : bs_ok (escape_dot s) = true.
Proof. induction s as [|c s IH]; [reflexivity|]. cbn [escape_dot flat_map]. apply bs_ok_app; [apply dot_byte_ok|exact IH]. Qed.
Lemma bs_ok_spec s : bs_ok s = true -> quote ∉ s /\ newline ∉ s /\ forall p t, s = p ++ backslash :: t -> exists t', t = "l"%char :: t'.
Proof.
  induction s as [|c s IH]; intros H.
  - split; [apply not_elem_of_nil|]. split; [apply not_elem_of_nil|]. intros p t E. destruct p; discriminate.
  - cbn [bs_ok] in H. apply andb_prop in H as [H H3]. apply andb_prop in H as [H1 H2]. destruct (IH H3) as (I1 & I2 & I3).
    unfold bad_byte in H1. rewrite negb_orb in H1. apply andb_prop in H1 as [Hq Hn]. apply negb_true_iff in Hq, Hn.
    apply Ascii.eqb_neq in Hq, Hn. split; [rewrite not_elem_of_cons; split; [congruence|exact I1]|]. split; [rewrite not_elem_of_cons; split; [congruence|exact I2]|].
    intros p t E. destruct p as [|x p].
    + apply cons_inv in E as [-> ->]. rewrite Ascii.eqb_refl in H2. destruct t as [|d t]; [discriminate|]. apply Ascii.eqb_eq in H2. subst d. exists t. reflexivity.
    + apply cons_inv in E as [_ E]. exact (I3 p t E).
Qed.
Lemma dot_escape_safe s : quote ∉ escape_dot s /\ newline ∉ escape_dot s /\
  forall p t, escape_dot s = p ++ backslash :: t -> exists t', t = "l"%char :: t'.
Proof. apply bs_ok_spec, escape_ok. Qed.
(** Injectivity: the codes of distinct bytes are not prefixes of one another. *)
Lemma dot_codes a b : a <> b -> has_prefix (dot_byte a) (dot_byte b) = false.
Proof.
  intros H. assert (A : forallb (fun a => forallb (fun b => Ascii.eqb a b || negb (has_prefix (dot_byte a) (dot_byte b))) all_bytes) all_bytes = true)
    by (vm_compute; reflexivity).
  rewrite forallb_forall in A. specialize (A a (proj1 (elem_of_list_In _ _) (all_bytes_elem a))). rewrite forallb_forall in A.
  specialize (A b (proj1 (elem_of_list_In _ _) (all_bytes_elem b))). apply orb_prop in A as [A|A]; [apply Ascii.eqb_eq in A; contradiction|].
  apply negb_true_iff, A.
Qed.
Lemma dot_byte_nonnil c : dot_byte c <> [].
Proof. unfold dot_byte. destruct (dot_plain c); [discriminate|]. destruct (Ascii.eqb c newline); discriminate. Qed.
Lemma app_prefix {A} (a b x y : list A) : a ++ x = b ++ y -> (exists c, b = a ++ c) \/ (exists c, a = b ++ c).
Proof.
  revert b. induction a as [|u a IH]; intros b E; [left; exists b; reflexivity|]. destruct b as [|v b]; [right; exists (u :: a); reflexivity|].
  cbn in E. apply cons_inv in E as [<- E]. destruct (IH b E) as [[c ->]|[c ->]]; [left|right]; exists c; reflexivity.
Qed.
Lemma escape_inj s : forall t, escape_dot s = escape_dot t -> s = t.
Proof.
  induction s as [|a s IH]; intros [|b t] E; [reflexivity| | |].
  - cbn in E. pose proof (dot_byte_nonnil b). destruct (dot_byte b); [contradiction|discriminate].
  - cbn in E. pose proof (dot_byte_nonnil a). destruct (dot_byte a); [contradiction|discriminate].
  - cbn [escape_dot flat_map] in E. destruct (decide (a = b)) as [->|Hne].
    + apply app_inv_head in E. rewrite (IH t E). reflexivity.
    + exfalso. destruct (app_prefix _ _ _ _ E) as [[c Hc]|[c Hc]].
      * pose proof (dot_codes a b Hne) as D. assert (has_prefix (dot_byte a) (dot_byte b) = true) by (apply has_prefix_spec; exists c; exact Hc). congruence.
      * pose proof (dot_codes b a (not_eq_sym Hne)) as D. assert (has_prefix (dot_byte b) (dot_byte a) = true) by (apply has_prefix_spec; exists c; exact Hc). congruence.
Qed.

(** ** Delivering chunks *)
Section writer.
  Context (faults : nat -> option nat).
  Lemma fprint_delivered s p : delivered faults s [p] (fprint faults s p).
  Proof.
    unfold fprint, delivered. destruct (faults (sk_calls s)) as [n|] eqn:E.
    - exists 0%nat, p, n. rewrite Nat.add_0_r. split_and!; auto. intros j Hj. lia.
    - cbn [length concat]. rewrite app_nil_r, Nat.add_1_r. split; [|reflexivity]. intros i Hi. replace i with 0%nat by lia. rewrite Nat.add_0_r. exact E.
  Qed.
  Lemma delivered_nil s : delivered faults s [] (s, None).
  Proof. cbn. rewrite app_nil_r, Nat.add_0_r. split; [intros i Hi; lia|]. destruct s; reflexivity. Qed.
  (** Sequencing: go on after success, stop after failure. *)
  Lemma delivered_ok s c1 s1 c2 r : delivered faults s c1 (s1, None) -> delivered faults s1 c2 r -> delivered faults s (c1 ++ c2) r.
  Proof.
    unfold bytes in *. intros [H1 ->] H2. destruct r as [s2 [err|]]; cbn [delivered sk_calls sk_out] in *; unfold bytes in *.
    - destruct H2 as (i & p & n & Hi & -> & Hf & Hj & ->). exists (length c1 + i)%nat, p, n. split_and!.
      + rewrite lookup_app_r by lia. replace (length c1 + i - length c1)%nat with i by lia. exact Hi.
      + f_equal. lia.
      + rewrite Nat.add_assoc. exact Hf.
      + intros j Hlt. destruct (decide (j < length c1)%nat); [apply H1; assumption|]. specialize (Hj (j - length c1)%nat ltac:(lia)).
        replace (sk_calls s + j)%nat with (sk_calls s + length c1 + (j - length c1))%nat by lia. exact Hj.
      + f_equal; [|lia]. rewrite take_add_app by reflexivity. rewrite concat_app, <- !app_assoc. reflexivity.
    - destruct H2 as [H2 ->]. split.
      + intros i Hi. rewrite app_length in Hi. destruct (decide (i < length c1)%nat); [apply H1; assumption|]. specialize (H2 (i - length c1)%nat ltac:(lia)).
        replace (sk_calls s + i)%nat with (sk_calls s + length c1 + (i - length c1))%nat by lia. exact H2.
      + rewrite concat_app, app_length, <- app_assoc. f_equal. lia.
  Qed.
  Lemma delivered_fail s c1 s1 e c2 : delivered faults s c1 (s1, Some e) -> delivered faults s (c1 ++ c2) (s1, Some e).
  Proof.
    intros (i & p & n & Hi & He & Hf & Hj & Hs). exists i, p, n. unfold bytes in *. pose proof (lookup_lt_Some _ _ _ Hi).
    split_and!; auto; [rewrite lookup_app_l by assumption; exact Hi|]. rewrite take_app_le by lia. exact Hs.
  Qed.
  (** Chained steps. *)
  Lemma delivered_bind s c1 r1 c2 (k : sink -> sink * option werr) :
    delivered faults s c1 r1 -> (forall s', delivered faults s' c2 (k s')) ->
    delivered faults s (c1 ++ c2) (match r1 with (s1, Some e) => (s1, Some e) | (s1, None) => k s1 end).
  Proof. intros H1 H2. destruct r1 as [s1 [e|]]; [apply delivered_fail, H1|]. eapply delivered_ok; [exact H1|apply H2]. Qed.
  Lemma write_all_delivered ps : forall s, delivered faults s ps (write_all faults s ps).
  Proof.
    induction ps as [|p ps IH]; intros s; [apply delivered_nil|]. cbn [write_all].
    exact (delivered_bind s [p] (fprint faults s p) ps (fun s' => write_all faults s' ps) (fprint_delivered s p) IH).
  Qed.
  (** A sticky fold. *)
  Lemma fold_delivered {A} (f : sink -> A -> sink * option werr) (ch : A -> list bytes) (l : list A) :
    (forall a, a ∈ l -> forall s, delivered faults s (ch a) (f s a)) ->
    forall s, delivered faults s (flat_map ch l) (fold_left (fun st a => match snd st with Some _ => st | None => f (fst st) a end) l (s, None)).
  Proof.
    assert (Stuck : forall l s e, fold_left (fun st a => match snd st with Some _ => st | None => f (fst st) a end) l (s, Some e) = (s, Some e)).
    { clear l. induction l as [|a l IH]; intros s e; [reflexivity|]. cbn [fold_left snd]. apply IH. }
    induction l as [|a l IH]; intros H s; [apply delivered_nil|]. cbn [fold_left snd fst flat_map].
    pose proof (H a (elem_of_list_here a l) s) as Ha. destruct (f s a) as [s1 [e|]].
    - rewrite Stuck. apply delivered_fail, Ha.
    - eapply delivered_ok; [exact Ha|]. apply IH. intros b Hb. apply H, elem_of_list_further, Hb.
  Qed.

  Lemma stats_text_delivered s lines : delivered faults s lines (stats_text faults s lines).
  Proof.
    unfold stats_text. pose proof (fold_delivered (fprint faults) (fun l => [l]) lines (fun a _ s => fprint_delivered s a) s) as H.
    replace (flat_map (fun l => [l]) lines) with lines in H; [exact H|]. clear. induction lines as [|a l IH]; [reflexivity|]. cbn. congruence.
  Qed.

  (** ** Trees *)
  Fixpoint sview_ind' (P : sview -> Prop)
      (H : forall id tid fname args dur orph annots kids, Forall P kids -> P (SView id tid fname args dur orph annots kids)) (v : sview) : P v :=
    match v with
    | SView id tid fname args dur orph annots kids =>
        H id tid fname args dur orph annots kids
          ((fix go ks := match ks return Forall P ks with [] => Forall_nil_2 P | k :: ks' => Forall_cons_2 P k ks' (sview_ind' P H k) (go ks') end) kids)
    end.
  Definition edge_step (id : Z) (s : sink) (k : sview) : sink * option werr :=
    match out_dot faults s k with (s', Some e) => (s', Some e) | (s', None) => fprint faults s' (dot_edge id (v_id k)) end.
  Lemma out_dot_fold id ks : forall st,
    (fix go (ks : list sview) (st : sink * option werr) : sink * option werr :=
       match ks with
       | [] => st
       | k :: ks' => go ks' (match snd st with
                             | Some _ => st
                             | None => match out_dot faults (fst st) k with
                                       | (s', Some e) => (s', Some e)
                                       | (s', None) => fprint faults s' (dot_edge id (v_id k))
                                       end
                             end)
       end) ks st = fold_left (fun st a => match snd st with Some _ => st | None => edge_step id (fst st) a end) ks st.
  Proof. induction ks as [|k ks IH]; intros st; [reflexivity|]. exact (IH _). Qed.
  Ltac dstep D :=
    let H := fresh in pose proof D as H;
    match type of H with
    | delivered _ ?s ?c ?r =>
        let s' := fresh "s" in let e := fresh "e" in
        destruct r as [s' [e|]]; [exact (delivered_fail s c s' e _ H)|refine (delivered_ok s c s' _ _ H _); clear H]
    end.
  Lemma out_dot_delivered v : forall s, delivered faults s (dot_chunks v) (out_dot faults s v).
  Proof.
    induction v as [id tid fname args dur orph annots kids IH] using sview_ind'. intros s. cbn [out_dot dot_chunks].
    dstep (fprint_delivered s (dot_head id fname args dur orph)).
    dstep (write_all_delivered (map dot_annot annots) s0).
    dstep (fprint_delivered s1 dot_close).
    rewrite out_dot_fold. apply (fold_delivered (edge_step id) (fun k => dot_chunks k ++ [dot_edge id (v_id k)])).
    intros k Hk s4. unfold edge_step. rewrite Forall_forall in IH. dstep (IH k Hk s4). apply fprint_delivered.
  Qed.
  Lemma spans_dot_delivered s roots : delivered faults s (spans_dot_chunks roots) (spans_dot faults s roots).
  Proof.
    unfold spans_dot, spans_dot_chunks. dstep (fprint_delivered s dot_open).
    dstep (fold_delivered (out_dot faults) dot_chunks roots (fun v _ => out_dot_delivered v) s0). apply fprint_delivered.
  Qed.
  Lemma out_text_fold indent ks : forall st,
    (fix go (ks : list sview) (st : sink * option werr) : sink * option werr :=
       match ks with
       | [] => st
       | k :: ks' => go ks' (match snd st with Some _ => st | None => out_text faults indent (fst st) k end)
       end) ks st = fold_left (fun st a => match snd st with Some _ => st | None => out_text faults indent (fst st) a end) ks st.
  Proof. induction ks as [|k ks IH]; intros st; [reflexivity|]. exact (IH _). Qed.
  Lemma out_text_delivered v : forall indent s, delivered faults s (text_chunks indent v) (out_text faults indent s v).
  Proof.
    induction v as [id tid fname args dur orph annots kids IH] using sview_ind'. intros indent s. cbn [out_text text_chunks].
    dstep (fprint_delivered s (text_head indent id tid fname args dur orph)).
    dstep (write_all_delivered (map (text_annot indent) annots) s0).
    rewrite out_text_fold. apply (fold_delivered (out_text faults (indent ++ B " ")) (text_chunks (indent ++ B " "))).
    intros k Hk s3. rewrite Forall_forall in IH. apply IH, Hk.
  Qed.
  Lemma spans_text_delivered s roots : delivered faults s (spans_text_chunks roots) (spans_text faults s roots).
  Proof.
    unfold spans_text, spans_text_chunks.
    apply (fold_delivered (fun s v => match out_text faults [] s v with (s', Some e) => (s', Some e) | (s', None) => fprint faults s' [newline] end)
      (fun v => text_chunks [] v ++ [[newline]])). intros v _ s1.
    dstep (out_text_delivered v [] s1). apply fprint_delivered.
  Qed.
  Lemma buf_to_delivered s b : delivered faults s (nonempty_chunk b) (buf_to faults s b).
  Proof. destruct b; [apply delivered_nil|apply fprint_delivered]. Qed.
  Lemma opt_delivered s o f : delivered faults s (opt_chunk o f) (match o with Some t => fprint faults s (f t) | None => (s, None) end).
  Proof. destruct o; [apply fprint_delivered|apply delivered_nil]. Qed.
  Lemma out_func_dot_delivered f s : delivered faults s (func_dot_chunks f) (out_func_dot faults s f).
  Proof.
    unfold out_func_dot, func_dot_chunks.
    match goal with |- delivered _ _ (?h :: _) _ => dstep (fprint_delivered s h) end.
    dstep (buf_to_delivered s0 (concat (map err_dot (fv_errors f)))).
    dstep (opt_delivered s1 (fv_success f) (fun t => escape_dot (B "success times:" ++ [newline] ++ t))).
    dstep (opt_delivered s2 (fv_failure f) (fun t => escape_dot (B "failure times:" ++ [newline] ++ t))).
    dstep (fprint_delivered s3 dot_close).
    pose proof (fold_delivered (fun s p => fprint faults s (dot_parent (fv_id f) p)) (fun p => [dot_parent (fv_id f) p]) (fv_parents f) (fun p _ s => fprint_delivered s _) s4) as H.
    replace (flat_map (fun p => [dot_parent (fv_id f) p]) (fv_parents f)) with (map (dot_parent (fv_id f)) (fv_parents f)) in H; [exact H|].
    clear. induction (fv_parents f) as [|a l IH]; [reflexivity|]. cbn. congruence.
  Qed.
  Lemma funcs_dot_delivered s fs : delivered faults s (funcs_dot_chunks fs) (funcs_dot faults s fs).
  Proof.
    unfold funcs_dot, funcs_dot_chunks. dstep (fprint_delivered s dot_open).
    dstep (fold_delivered (out_func_dot faults) func_dot_chunks fs (fun v _ => out_func_dot_delivered v) s0). apply fprint_delivered.
  Qed.
End writer.

(** ** JSON lists *)
Fixpoint sep_chunks (sep : bytes) (es : list bytes) : list bytes :=
  match es with [] => [] | e :: es' => (sep ++ B " " ++ e) :: sep_chunks (B "," ++ [newline]) es' end.
Lemma sep_chunks_comma es : concat (sep_chunks (B "," ++ [newline]) es) = concat (map (fun e => B "," ++ [newline] ++ B " " ++ e) es).
Proof. induction es as [|e es IH]; [reflexivity|]. cbn [sep_chunks concat map]. rewrite IH, <- !app_assoc. reflexivity. Qed.
Lemma join_concat sep (l : list bytes) x : join sep (x :: l) = x ++ concat (map (fun y => sep ++ y) l).
Proof.
  revert x. induction l as [|y l IH]; intros x; [cbn; rewrite app_nil_r; reflexivity|].
  change (join sep (x :: y :: l)) with (x ++ sep ++ join sep (y :: l)). rewrite IH. cbn [map concat]. rewrite <- !app_assoc. reflexivity.
Qed.
Lemma json_open_chunks es : concat (B "[" :: sep_chunks [newline] es) = json_open es.
Proof.
  unfold json_open. cbn [concat]. f_equal. destruct es as [|e es]; [reflexivity|].
  cbn [sep_chunks concat map]. rewrite join_concat, sep_chunks_comma, map_map, <- !app_assoc. reflexivity.
Qed.
Section json.
  Context (faults : nat -> option nat).
  Lemma lw_stuck elems : forall l e, lw_err l = Some e ->
    lw_sink (fold_left (lw_elem faults) elems l) = lw_sink l /\ lw_err (fold_left (lw_elem faults) elems l) = Some e.
  Proof.
    induction elems as [|x elems IH]; intros l e He; [auto|]. cbn [fold_left].
    assert (E : lw_elem faults l x = LW (lw_sink l) (lw_err l) (lw_sep l) (S (lw_index l))) by (unfold lw_elem; rewrite He; reflexivity).
    rewrite E. destruct (IH (LW (lw_sink l) (lw_err l) (lw_sep l) (S (lw_index l))) e He) as [A C]. rewrite A, C. auto.
  Qed.
  Lemma lw_elems es : forall s sep i,
    let r := fold_left (lw_elem faults) (map Some es) (LW s None sep i) in
    delivered faults s (sep_chunks sep es) (lw_sink r, lw_err r) /\ (lw_err r = None -> lw_index r = (i + length es)%nat).
  Proof.
    induction es as [|e es IH]; intros s sep i r.
    - subst r. cbn [map fold_left lw_sink lw_err lw_index sep_chunks length]. split; [apply delivered_nil|intros _; lia].
    - subst r. cbn [map fold_left sep_chunks length]. set (p := sep ++ B " " ++ e). pose proof (fprint_delivered faults s p) as D.
      assert (E : lw_elem faults (LW s None sep i) (Some e) = LW (fst (fprint faults s p)) (snd (fprint faults s p)) (B "," ++ [newline]) (S i)).
      { unfold lw_elem. cbn [lw_err lw_sink lw_sep lw_index]. fold p. destruct (fprint faults s p). reflexivity. }
      rewrite E. destruct (fprint faults s p) as [s1 [err|]]; cbn [fst snd] in *.
      + destruct (lw_stuck (map Some es) (LW s1 (Some err) (B "," ++ [newline]) (S i)) err eq_refl) as [A C]. rewrite A, C. cbn [lw_sink].
        split; [exact (delivered_fail faults s [p] s1 err _ D)|discriminate].
      + destruct (IH s1 (B "," ++ [newline]) (S i)) as [A C]. split; [exact (delivered_ok faults s [p] s1 _ _ D A)|]. intros H. rewrite (C H). lia.
  Qed.
  Lemma write_list_ok s es : exists chunks, concat chunks = json_text es /\ delivered faults s chunks (write_list faults s (map Some es)).
  Proof.
    exists ((B "[" :: sep_chunks [newline] es) ++ [B "]" ++ [newline]]). split.
    { rewrite concat_app, json_open_chunks. unfold json_text. cbn [concat]. rewrite app_nil_r. reflexivity. }
    unfold write_list, lw_new. pose proof (fprint_delivered faults s (B "[")) as D. destruct (fprint faults s (B "[")) as [s1 [err|]].
    - destruct (lw_stuck (map Some es) (LW s1 (Some err) [newline] 0) err eq_refl) as [A C]. unfold lw_done. rewrite C, A. cbn [lw_sink].
      exact (delivered_fail faults s [B "["] s1 err _ D).
    - destruct (lw_elems es s1 [newline] 0%nat) as [A C]. set (l := fold_left (lw_elem faults) (map Some es) (LW s1 None [newline] 0)) in *.
      pose proof (delivered_ok faults s [B "["] s1 _ _ D A) as E. cbn [app] in E. unfold lw_done. destruct (lw_err l) as [err|].
      + exact (delivered_fail faults s _ _ err _ E).
      + exact (delivered_ok faults s _ _ _ _ E (fprint_delivered faults _ _)).
  Qed.
  Lemma write_list_bad s es rest : let '(s', e) := write_list faults s (map Some es ++ None :: rest) in
    exists chunks, concat chunks = json_open es /\
      ((e = Some (EMarshal (length es)) /\ delivered faults s chunks (s', None)) \/ (exists k, e = Some (EWrite k) /\ delivered faults s chunks (s', e))).
  Proof.
    destruct (write_list faults s (map Some es ++ None :: rest)) as [s' e] eqn:R.
    exists (B "[" :: sep_chunks [newline] es). split; [apply json_open_chunks|].
    unfold write_list, lw_new in R. pose proof (fprint_delivered faults s (B "[")) as D. destruct (fprint faults s (B "[")) as [s1 [err|]].
    - destruct (lw_stuck (map Some es ++ None :: rest) (LW s1 (Some err) [newline] 0) err eq_refl) as [A C]. unfold lw_done in R. rewrite C, A in R. cbn [lw_sink] in R.
      apply pair_equal_spec in R as [<- <-]. right. pose proof D as D0. destruct D0 as (i & p & n & _ & He & _). exists (sk_calls s + i)%nat. split; [congruence|].
      exact (delivered_fail faults s [B "["] s1 err _ D).
    - rewrite fold_left_app in R. destruct (lw_elems es s1 [newline] 0%nat) as [A C]. set (l := fold_left (lw_elem faults) (map Some es) (LW s1 None [newline] 0)) in *.
      pose proof (delivered_ok faults s [B "["] s1 _ _ D A) as E. cbn [app] in E. cbn [fold_left] in R.
      destruct (lw_err l) as [err|] eqn:El.
      + assert (X : lw_elem faults l None = LW (lw_sink l) (Some err) (lw_sep l) (S (lw_index l))) by (unfold lw_elem; rewrite El; reflexivity).
        rewrite X in R. destruct (lw_stuck rest (LW (lw_sink l) (Some err) (lw_sep l) (S (lw_index l))) err eq_refl) as [A' C']. unfold lw_done in R. rewrite C', A' in R.
        cbn [lw_sink] in R. apply pair_equal_spec in R as [<- <-]. right. pose proof E as E0. destruct E0 as (i & p & n & _ & He & _).
        exists (sk_calls s + i)%nat. split; [congruence|exact E].
      + assert (X : lw_elem faults l None = LW (lw_sink l) (Some (EMarshal (lw_index l))) (lw_sep l) (S (lw_index l))) by (unfold lw_elem; rewrite El; reflexivity).
        rewrite X in R. destruct (lw_stuck rest (LW (lw_sink l) (Some (EMarshal (lw_index l))) (lw_sep l) (S (lw_index l))) _ eq_refl) as [A' C'].
        unfold lw_done in R. rewrite C', A' in R. cbn [lw_sink] in R. apply pair_equal_spec in R as [<- <-]. left. split; [|exact E].
        rewrite (C eq_refl). reflexivity.
  Qed.
End json.

(** ** Quoted strings of a DOT file *)
Lemma strings_out x y : quote ∉ x -> dot_strings None (x ++ y) = dot_strings None y.
Proof.
  induction x as [|c x IH]; intros H; [reflexivity|]. apply not_elem_of_cons in H as [H1 H2]. cbn [app dot_strings].
  destruct (Ascii.eqb_spec c quote) as [->|_]; [congruence|]. apply IH, H2.
Qed.
Lemma strings_in x y : forall cur, quote ∉ x -> dot_strings (Some cur) (x ++ y) = dot_strings (Some (cur ++ x)) y.
Proof.
  induction x as [|c x IH]; intros cur H; [rewrite app_nil_r; reflexivity|]. apply not_elem_of_cons in H as [H1 H2]. cbn [app dot_strings].
  destruct (Ascii.eqb_spec c quote) as [->|_]; [congruence|]. rewrite (IH _ H2), <- app_assoc. reflexivity.
Qed.
Lemma strings_open y : dot_strings None ([quote] ++ y) = dot_strings (Some []) y.
Proof. reflexivity. Qed.
Lemma strings_close cur y : dot_strings (Some cur) ([quote] ++ y) = cur :: dot_strings None y.
Proof. reflexivity. Qed.
Lemma no_quote_app x y : quote ∉ x -> quote ∉ y -> quote ∉ x ++ y.
Proof. rewrite elem_of_app. tauto. Qed.
Lemma dec_digit_no_quote d : dec_digit d <> quote.
Proof.
  unfold dec_digit. destruct (le_lt_dec (length (B "0123456789")) (Z.to_nat d)) as [H|H].
  - rewrite List.nth_overflow by exact H. discriminate.
  - assert (A : Forall (fun c => c <> quote) (B "0123456789")) by (repeat constructor; discriminate).
    rewrite Forall_forall in A. apply A. apply elem_of_list_In, List.nth_In, H.
Qed.
Lemma dec_go_no_quote fuel : forall u acc, quote ∉ acc -> quote ∉ dec_go fuel u acc.
Proof.
  induction fuel as [|fuel IH]; intros u acc H; [exact H|]. cbn [dec_go]. destruct (u <? 10).
  - rewrite not_elem_of_cons. split; [apply not_eq_sym, dec_digit_no_quote|exact H].
  - apply IH. rewrite not_elem_of_cons. split; [apply not_eq_sym, dec_digit_no_quote|exact H].
Qed.
Lemma dec_no_quote v : quote ∉ dec v.
Proof.
  unfold dec. destruct (v <? 0); [rewrite not_elem_of_cons; split; [discriminate|]|]; apply dec_go_no_quote, not_elem_of_nil.
Qed.
Lemma escape_app a b : escape_dot (a ++ b) = escape_dot a ++ escape_dot b.
Proof. apply flat_map_app. Qed.
Lemma escape_concat l : escape_dot (concat l) = concat (map escape_dot l).
Proof. induction l as [|a l IH]; [reflexivity|]. cbn [concat map]. rewrite escape_app, IH. reflexivity. Qed.
Ltac no_quote_lit := apply (bool_decide_unpack _); vm_compute; exact I.
Lemma dot_edge_no_quote a b : quote ∉ dot_edge a b.
Proof. unfold dot_edge. repeat apply no_quote_app; try apply dec_no_quote; no_quote_lit. Qed.
Lemma dot_open_no_quote : quote ∉ dot_open.
Proof. no_quote_lit. Qed.
Lemma annots_escape annots : concat (map dot_annot annots) = escape_dot (concat (map (fun a => fst a ++ B ": " ++ snd a ++ [newline]) annots)).
Proof. rewrite escape_concat, map_map. reflexivity. Qed.
Lemma dot_chunks_strings v : forall y, dot_strings None (concat (dot_chunks v) ++ y) = span_labels v ++ dot_strings None y.
Proof.
  induction v as [id tid fname args dur orph annots kids IH] using sview_ind'. intros y. cbn [dot_chunks span_labels].
  cbn [concat]. rewrite concat_app. change ([dot_close] ++ ?x) with (dot_close :: x). cbn [concat].
  unfold dot_head. rewrite <- !app_assoc.
  rewrite (strings_out (B " f")) by no_quote_lit. rewrite (strings_out (dec id)) by apply dec_no_quote. rewrite (strings_out (B " [label=")) by no_quote_lit.
  rewrite strings_open, strings_in by apply dot_escape_safe. rewrite annots_escape, strings_in by apply dot_escape_safe.
  unfold dot_close. rewrite <- !app_assoc, strings_close. cbn [app]. unfold span_label. f_equal.
  rewrite (strings_out (B "];")) by no_quote_lit. change (newline :: ?x) with ([newline] ++ x). rewrite (strings_out [newline]) by no_quote_lit.
  induction IH as [|k ks Hk _ IHks]; [reflexivity|]. cbn [flat_map]. rewrite !concat_app, <- !app_assoc, Hk. f_equal.
  cbn [concat]. rewrite app_nil_r. rewrite (strings_out (dot_edge id (v_id k))) by apply dot_edge_no_quote. exact IHks.
Qed.
Lemma spans_dot_strings roots : dot_strings None (concat (spans_dot_chunks roots)) = flat_map span_labels roots.
Proof.
  unfold spans_dot_chunks. cbn [concat]. rewrite (strings_out dot_open) by apply dot_open_no_quote. rewrite concat_app.
  induction roots as [|v roots IH]; [reflexivity|]. cbn [flat_map]. rewrite concat_app, <- app_assoc, dot_chunks_strings, IH. reflexivity.
Qed.

(** ** Buffering *)
Section buf.
  Context (faults : nat -> option nat).
  (** [b] has taken [x] on top of [o] written before. *)
  Definition buf_inv (o x : bytes) (b : bufio) : Prop :=
    match bf_err b with
    | None => sk_out (bf_sink b) ++ bf_data b = o ++ x
    | Some e => (exists k, e = EWrite k /\ faults k <> None /\ sk_calls (bf_sink b) = S k) /\ exists rest, sk_out (bf_sink b) ++ rest = o ++ x
    end.
  Lemma buf_inv_more o x y b : bf_err b <> None -> buf_inv o x b -> buf_inv o (x ++ y) b.
  Proof.
    unfold buf_inv. destruct (bf_err b) as [e|]; [|contradiction]. intros _ [H1 [rest H2]]. split; [exact H1|].
    exists (rest ++ y). rewrite !app_assoc, H2, <- app_assoc. reflexivity.
  Qed.
  Lemma flush_inv o x b : buf_inv o x b -> buf_inv o x (bufio_flush faults b) /\ (bf_err (bufio_flush faults b) = None -> bf_data (bufio_flush faults b) = []).
  Proof.
    intros H. unfold bufio_flush. destruct (bf_err b) as [e|] eqn:E; [split; [exact H|congruence]|].
    unfold buf_inv in H. rewrite E in H. destruct (bf_data b) as [|d ds] eqn:Ed.
    - split; [unfold buf_inv; rewrite E, Ed; exact H|intros _; exact Ed].
    - set (dd := d :: ds) in *. destruct (faults (sk_calls (bf_sink b))) as [n|] eqn:F; unfold buf_inv; cbn [bf_err bf_sink sk_out sk_calls bf_data].
      + split; [|discriminate]. split.
        * exists (sk_calls (bf_sink b)). split_and!; [reflexivity|congruence|reflexivity].
        * exists (drop n dd). rewrite <- app_assoc, take_drop. exact H.
      + split; [|reflexivity]. rewrite app_nil_r. exact H.
  Qed.
  Lemma direct_inv o x b p : bf_err b = None -> bf_data b = [] -> buf_inv o x b ->
    buf_inv o (x ++ p) (let '(s, e) := fprint faults (bf_sink b) p in Buf s [] e).
  Proof.
    unfold buf_inv. intros E D H. rewrite E, D, app_nil_r in H. unfold fprint. destruct (faults (sk_calls (bf_sink b))) as [n|] eqn:F; cbn [bf_err bf_sink sk_out sk_calls bf_data].
    - split; [exists (sk_calls (bf_sink b)); split_and!; [reflexivity|congruence|reflexivity]|]. exists (drop n p). rewrite <- app_assoc, take_drop, H, <- app_assoc. reflexivity.
    - rewrite app_nil_r, H, <- app_assoc. reflexivity.
  Qed.
  Lemma keep_inv o x b p : bf_err b = None -> buf_inv o x b -> buf_inv o (x ++ p) (Buf (bf_sink b) (bf_data b ++ p) None).
  Proof. unfold buf_inv. intros E H. rewrite E in H. cbn [bf_err bf_sink bf_data]. rewrite app_assoc, H, <- app_assoc. reflexivity. Qed.
  Lemma write_done fuel o x b p : bf_data b = [] -> buf_inv o x b -> buf_inv o (x ++ p) (bufio_write faults (S fuel) b p).
  Proof.
    intros D H. cbn [bufio_write]. destruct (bf_err b) as [e|] eqn:E; [apply buf_inv_more; [congruence|exact H]|].
    destruct (_ <? _)%nat; [|apply keep_inv; assumption]. rewrite D. apply direct_inv; assumption.
  Qed.
  Lemma write_err fuel b p : bf_err b <> None -> bufio_write faults fuel b p = b.
  Proof. destruct fuel; intros H; [reflexivity|]. cbn [bufio_write]. destruct (bf_err b); [reflexivity|contradiction]. Qed.
  Lemma bufio_fprint_inv o x b p : buf_inv o x b -> buf_inv o (x ++ p) (bufio_fprint faults b p).
  Proof.
    intros H. unfold bufio_fprint. destruct (bf_err b) as [e|] eqn:E; [rewrite write_err by congruence; apply buf_inv_more; [congruence|exact H]|].
    change (bufio_write faults 3 b p) with (bufio_write faults (S 2) b p). cbn [bufio_write]. fold (bufio_write faults). rewrite E.
    destruct (_ <? _)%nat; [|apply keep_inv; assumption]. destruct (bf_data b) as [|d ds] eqn:D; [apply direct_inv; assumption|].
    rewrite <- D. set (n := (bufio_size - length (bf_data b))%nat).
    destruct (flush_inv o (x ++ take n p) (Buf (bf_sink b) (bf_data b ++ take n p) None)) as [F1 F2]; [apply keep_inv; assumption|].
    set (b' := bufio_flush faults (Buf (bf_sink b) (bf_data b ++ take n p) None)) in *.
    rewrite <- (take_drop n p) at 1. rewrite app_assoc.
    destruct (bf_err b') as [e|] eqn:E'; [apply (buf_inv_more _ _ (drop n p)) in F1; [exact F1|congruence]|].
    apply (write_done 1 o (x ++ take n p) b' (drop n p) (F2 eq_refl)) in F1. cbn [bufio_write] in F1. rewrite E' in F1. exact F1.
  Qed.
  Lemma buffered_inv s chunks : buf_inv (sk_out s) (concat chunks) (buffered faults s chunks) /\
    (bf_err (buffered faults s chunks) = None -> bf_data (buffered faults s chunks) = []).
  Proof.
    unfold buffered. apply flush_inv. assert (H0 : buf_inv (sk_out s) [] (Buf s [] None)) by reflexivity.
    revert H0. generalize (Buf s [] None). change (concat chunks) with ([] ++ concat chunks). generalize (@nil ascii) as x.
    induction chunks as [|p chunks IH]; intros x b H; [cbn; rewrite app_nil_r; exact H|]. cbn [fold_left concat]. rewrite app_assoc. apply IH, bufio_fprint_inv, H.
  Qed.
  Lemma buffered_spec s chunks : let b := buffered faults s chunks in
    match bf_err b with
    | None => sk_out (bf_sink b) = sk_out s ++ concat chunks
    | Some e => (exists k, e = EWrite k /\ faults k <> None /\ sk_calls (bf_sink b) = S k) /\ exists rest, sk_out (bf_sink b) ++ rest = sk_out s ++ concat chunks
    end.
  Proof.
    destruct (buffered_inv s chunks) as [H1 H2]. unfold buf_inv in H1. cbn zeta. destruct (bf_err (buffered faults s chunks)) as [e|]; [exact H1|].
    rewrite (H2 eq_refl), app_nil_r in H1. exact H1.
  Qed.
  (** Small writes stay in the buffer. *)
  Lemma small_writes n : forall s d, (length d + n <= bufio_size)%nat ->
    fold_left (bufio_fprint faults) (List.repeat [newline] n) (Buf s d None) = Buf s (d ++ List.repeat newline n) None.
  Proof.
    induction n as [|n IH]; intros s d H; [cbn; rewrite app_nil_r; reflexivity|]. cbn [List.repeat fold_left].
    assert (E : bufio_fprint faults (Buf s d None) [newline] = Buf s (d ++ [newline]) None).
    { unfold bufio_fprint. change (bufio_write faults 3 (Buf s d None) [newline]) with (bufio_write faults (S 2) (Buf s d None) [newline]). cbn [bufio_write bf_err bf_data length].
      destruct (Nat.ltb_spec (bufio_size - length d) 1); [lia|reflexivity]. }
    rewrite E, IH by (rewrite app_length; cbn [length]; lia). rewrite <- app_assoc. reflexivity.
  Qed.
End buf.

(** *** FuncsText on a writer that never fails *)
Lemma text_parents_ok faults s ps : forall pr, (forall k, faults k = None) ->
  sk_out (fst (fst (fold_left (text_parent faults) ps ((s, None), pr)))) =
  sk_out s ++ concat (match pr, ps with
                      | _, [] => []
                      | true, _ => map (fun p => B ", " ++ parent_text p) ps
                      | false, p :: ps' => parent_text p :: map (fun p => B ", " ++ parent_text p) ps'
                      end) /\
  snd (fst (fold_left (text_parent faults) ps ((s, None), pr))) = None.
Proof.
  revert s. induction ps as [|p ps IH]; intros s pr H.
  - destruct pr; cbn [fold_left fst snd concat]; rewrite app_nil_r; auto.
  - cbn [fold_left]. destruct pr; cbn [text_parent]; unfold fprint; rewrite !H; cbn [sk_calls sk_out];
      rewrite ?H; cbn [sk_calls sk_out].
    + match goal with |- context [fold_left _ ps (Sink ?o ?n, None, true)] => destruct (IH (Sink o n) true H) as [E1 E2] end.
      split; [|exact E2]. rewrite E1. cbn [sk_out].
      destruct ps as [|p' ps']; cbn [map concat]; rewrite ?app_nil_r, <- ?app_assoc; reflexivity.
    + match goal with |- context [fold_left _ ps (Sink ?o ?n, None, true)] => destruct (IH (Sink o n) true H) as [E1 E2] end.
      split; [|exact E2]. rewrite E1. cbn [sk_out].
      destruct ps as [|p' ps']; cbn [map concat]; rewrite ?app_nil_r, <- ?app_assoc; reflexivity.
Qed.
Lemma text_parents_join (ps : list (option Z)) :
  concat (match ps with [] => [] | p :: ps' => parent_text p :: map (fun p => B ", " ++ parent_text p) ps' end) =
  join (B ", ") (map parent_text ps).
Proof. destruct ps as [|p ps]; [reflexivity|]. cbn [map]. rewrite join_concat, map_map. reflexivity. Qed.

Lemma fprint_ok faults s p : (forall k, faults k = None) -> fprint faults s p = (Sink (sk_out s ++ p) (S (sk_calls s)), None).
Proof. intros H. unfold fprint. rewrite H. reflexivity. Qed.
Lemma out_func_text_ok faults s f : (forall k, faults k = None) ->
  sk_out (fst (out_func_text faults s f)) = sk_out s ++ func_text f /\ snd (out_func_text faults s f) = None.
Proof.
  intros H. unfold out_func_text, buf_to. rewrite (fprint_ok faults s _ H).
  match goal with |- context [fold_left (text_parent faults) _ (?s0, None, false)] =>
    destruct (text_parents_ok faults s0 (fv_parents f) false H) as [E1 E2];
    destruct (fold_left (text_parent faults) (fv_parents f) (s0, None, false)) as [[s2 e2] pr] end.
  cbn [fst snd] in E1, E2. rewrite !(fprint_ok faults s2 _ H). rewrite text_parents_join in E1. unfold func_text.
  destruct (concat (map err_text (fv_errors f))) as [|c l] eqn:Ee; rewrite ?(fprint_ok faults _ _ H); rewrite ?(fprint_ok faults _ _ H);
    cbn [fst snd sk_out]; (split; [|reflexivity]); rewrite E1; cbn [sk_out]; rewrite <- !app_assoc; reflexivity.
Qed.
Lemma funcs_text_ok faults fs : forall s, (forall k, faults k = None) ->
  sk_out (fst (funcs_text faults s fs)) = sk_out s ++ concat (map func_text fs) /\ snd (funcs_text faults s fs) = None.
Proof.
  unfold funcs_text. induction fs as [|f fs IH]; intros s H; cbn [fold_left map concat].
  - rewrite app_nil_r. auto.
  - cbn [fst snd]. destruct (out_func_text_ok faults s f H) as [E1 E2].
    destruct (out_func_text faults s f) as [s1 e1]. cbn [fst snd] in E1, E2. subst e1.
    destruct (IH s1 H) as [F1 F2]. rewrite F1, E1, <- app_assoc. auto.
Qed.

(** *** Marshalling failures *)
Lemma first_none {A} (l : list (option A)) : None ∈ l -> exists es rest, l = map Some es ++ None :: rest.
Proof.
  induction l as [|[a|] l IH]; intros H; [inversion H| |exists [], l; reflexivity].
  destruct IH as (es & rest & ->); [inversion H; assumption|]. exists (a :: es), rest. reflexivity.
Qed.
Lemma write_list_no_faults faults s es rest : (forall k, faults k = None) ->
  let '(s', e) := write_list faults s (map Some es ++ None :: rest) in
  sk_out s' = sk_out s ++ json_open es /\ e = Some (EMarshal (length es)).
Proof.
  intros H. pose proof (write_list_bad faults s es rest) as W.
  destruct (write_list faults s (map Some es ++ None :: rest)) as [s' e].
  destruct W as (ch & Hc & [(-> & _ & ->)|(k & -> & i & p & n & _ & _ & F & _)]).
  - cbn [sk_out]. rewrite Hc. auto.
  - rewrite H in F. discriminate.
Qed.

(** *** Small unflushed reports never leave the buffer *)
Lemma small_buffered faults chunks : forall s d, (length (d ++ concat chunks) <= bufio_size)%nat ->
  fold_left (bufio_fprint faults) chunks (Buf s d None) = Buf s (d ++ concat chunks) None.
Proof.
  induction chunks as [|p chunks IH]; intros s d Hl; cbn [fold_left concat] in *.
  - rewrite app_nil_r. reflexivity.
  - assert (bufio_fprint faults (Buf s d None) p = Buf s (d ++ p) None) as ->.
    { unfold bufio_fprint. cbn [bufio_write bf_err bf_data bf_sink].
      replace (bufio_size - length d <? length p)%nat with false; [reflexivity|].
      symmetry. apply Nat.ltb_ge. rewrite !app_length in Hl. unfold bytes in *. lia. }
    rewrite IH; rewrite <- app_assoc; [reflexivity|exact Hl].
Qed.
