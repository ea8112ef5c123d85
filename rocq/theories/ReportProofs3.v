(** Proofs about reading SpansText. *)
From Verif Require Import Base BaseProofs PresentModel PresentSpec PresentProofs SvgModel SvgSpec SvgNumProofs ArgsSpec ReportModel ReportSpec ReportProofs ReportProofs2.
Local Open Scope Z_scope.
Local Arguments B : simpl never.

(** ** Numbers and durations *)
Definition dur_char (c : ascii) : bool := ((48 <=? byte c) && (byte c <=? 57)) || existsb (Ascii.eqb c) ([ascii_of_N 194; ascii_of_N 181] ++ B "-.hmsn").
Definition dur_word (s : bytes) : Prop := forallb dur_char s = true.
Lemma word_app s t : dur_word s -> dur_word t -> dur_word (s ++ t).
Proof. unfold dur_word. intros H1 H2. rewrite forallb_app, H1, H2. reflexivity. Qed.
Lemma dec_digit_word d : dur_char (dec_digit d) = true.
Proof.
  unfold dec_digit. destruct (le_lt_dec 10 (Z.to_nat d)) as [H|H].
  - rewrite nth_overflow by (change (length (B "0123456789")) with 10%nat; exact H). vm_compute. reflexivity.
  - assert (A : forallb (fun n => dur_char (List.nth n (B "0123456789") "0"%char)) (seq 0 10) = true) by (vm_compute; reflexivity).
    rewrite forallb_forall in A. apply A. apply elem_of_list_In, elem_of_seq. lia.
Qed.
Lemma dec_go_word fuel : forall u acc, dur_word acc -> dur_word (dec_go fuel u acc).
Proof.
  unfold dur_word. induction fuel as [|fuel IH]; intros u acc H; [exact H|]. cbn [dec_go].
  destruct (u <? 10); [|apply IH]; cbn [forallb]; rewrite dec_digit_word; exact H.
Qed.
Lemma dec_word v : dur_word (dec v).
Proof.
  unfold dec. destruct (v <? 0); [|apply dec_go_word; reflexivity]. change ("-"%char :: ?x) with (["-"%char] ++ x). apply word_app; [reflexivity|apply dec_go_word; reflexivity].
Qed.
Lemma frac_word n : forall v p acc, dur_word acc -> dur_word (fst (frac_go n v p acc)).
Proof.
  unfold dur_word. induction n as [|n IH]; intros v p acc H; cbn [frac_go].
  - destruct p; [|exact H]. cbn [fst forallb]. apply andb_true_intro. split; [vm_compute; reflexivity|exact H].
  - apply IH. destruct (p || negb (v mod 10 =? 0)); [|exact H]. cbn [forallb]. rewrite dec_digit_word. exact H.
Qed.
Lemma abs_word u : dur_word (abs_text u).
Proof.
  unfold abs_text. destruct (u <? 1000000000).
  - destruct (u =? 0); [reflexivity|].
    assert (G : forall prec suffix, dur_word suffix -> dur_word (let (f, v) := frac_go prec u false [] in dec v ++ f ++ suffix)).
    { intros prec suffix Hs. pose proof (frac_word prec u false [] eq_refl) as F. destruct (frac_go prec u false []) as [f v].
      apply word_app; [apply dec_word|]. apply word_app; [exact F|exact Hs]. }
    destruct (u <? 1000); [apply G; reflexivity|]. destruct (u <? 1000000); apply G; reflexivity.
  - pose proof (frac_word 9 u false [] eq_refl) as F. destruct (frac_go 9 u false []) as [f secs]. cbn [fst] in F.
    repeat first [apply word_app | apply dec_word | exact F | match goal with |- dur_word (if ?b then _ else _) => destruct b end | reflexivity].
Qed.
Lemma duration_word d : dur_word (duration_text d).
Proof. rewrite duration_abs. destruct (d <? 0); [apply word_app; [reflexivity|]|]; apply abs_word. Qed.
Lemma word_free c s : dur_word s -> dur_char c = false -> c ∉ s.
Proof. unfold dur_word. intros H Hc Hin. rewrite forallb_forall in H. apply elem_of_list_In, H in Hin. congruence. Qed.

(** ** Lines *)
Lemma lines_go_line x : forall cur s, one_line x -> lines_go cur (x ++ newline :: s) = match lines_go [] s with Some l => Some ((cur ++ x) :: l) | None => None end.
Proof.
  induction x as [|c x IH]; intros cur s H; cbn [app lines_go].
  - rewrite app_nil_r. reflexivity.
  - destruct (Ascii.eqb c newline) eqn:E; [apply Ascii.eqb_eq in E; subst c; destruct H; left|]. rewrite IH by (intros F; apply H; right; exact F). rewrite <- app_assoc. reflexivity.
Qed.
Lemma lines_unlines l : Forall one_line l -> lines (unlines l) = Some l.
Proof.
  unfold lines. induction 1 as [|x l Hx Hl IH]; [reflexivity|]. rewrite unlines_cons. change ([newline] ++ unlines l) with (newline :: unlines l). rewrite (lines_go_line x [] _ Hx), IH. reflexivity.
Qed.
Lemma one_app a b : one_line a -> one_line b -> one_line (a ++ b).
Proof. unfold one_line. intros H1 H2 H. apply elem_of_app in H as [H|H]; auto. Qed.
Lemma one_word s : dur_word s -> one_line s.
Proof. intros H. apply word_free; [exact H|reflexivity]. Qed.
Lemma one_lit s : forallb (fun c => negb (Ascii.eqb c newline)) s = true -> one_line s.
Proof. intros H Hin. rewrite forallb_forall in H. apply elem_of_list_In, H in Hin. rewrite Ascii.eqb_refl in Hin. discriminate. Qed.
Ltac one := apply one_lit; vm_compute; reflexivity.
Lemma one_join sep l : one_line sep -> Forall one_line l -> one_line (join sep l).
Proof.
  intros Hs. induction 1 as [|x l Hx Hl IH]; [one|]. destruct l as [|y l]; [exact Hx|]. change (join sep (x :: y :: l)) with (x ++ sep ++ join sep (y :: l)).
  apply one_app; [exact Hx|]. apply one_app; [exact Hs|exact IH].
Qed.

(** ** Splitting *)
Lemma strip_app p s : strip p (p ++ s) = Some s.
Proof. induction p as [|a p IH]; [reflexivity|]. cbn. rewrite Ascii.eqb_refl. exact IH. Qed.
Lemma strip_some p : forall s r, strip p s = Some r -> s = p ++ r.
Proof.
  induction p as [|a p IH]; intros s r H; cbn [strip] in H; [apply Some_inj in H; exact H|]. destruct s as [|c s]; [discriminate|].
  destruct (Ascii.eqb a c) eqn:E; [|discriminate]. apply Ascii.eqb_eq in E. subst c. rewrite (IH _ _ H). reflexivity.
Qed.
Lemma strip_end_app s p : strip_end p (s ++ p) = Some s.
Proof. unfold strip_end. rewrite rev_app_distr, strip_app, rev_involutive. reflexivity. Qed.
Lemma strip_end_none p s c : c ∈ p -> c ∉ s -> strip_end p s = None.
Proof.
  intros Hp Hs. unfold strip_end. destruct (strip (rev p) (rev s)) as [r|] eqn:E; [|reflexivity]. apply strip_some in E. exfalso. apply Hs.
  rewrite <- (rev_involutive s), E, rev_app_distr, rev_involutive. apply elem_of_app. right. exact Hp.
Qed.
Lemma split_first_app c x s : c ∉ x -> split_first c (x ++ c :: s) = Some (x, s).
Proof.
  induction x as [|a x IH]; intros H; cbn [app split_first]; [rewrite Ascii.eqb_refl; reflexivity|].
  destruct (Ascii.eqb a c) eqn:E; [apply Ascii.eqb_eq in E; subst a; destruct H; left|]. rewrite IH by (intros F; apply H; right; exact F). reflexivity.
Qed.
Lemma split_first_none c x : c ∉ x -> split_first c x = None.
Proof.
  induction x as [|a x IH]; intros H; cbn [split_first]; [reflexivity|].
  destruct (Ascii.eqb a c) eqn:E; [apply Ascii.eqb_eq in E; subst a; destruct H; left|]. rewrite IH by (intros F; apply H; right; exact F). reflexivity.
Qed.
(** [p] starts with [a b]; the rest of it and what follows has no [b] after an [a]. *)
Lemma split_last_none p a b p' s : p = a :: b :: p' -> b ∉ s -> split_last p s = None.
Proof.
  intros ->. induction s as [|c s IH]; intros H; [reflexivity|]. cbn [split_last]. rewrite IH by (intros F; apply H; right; exact F).
  destruct (strip (a :: b :: p') (c :: s)) as [r|] eqn:E; [|reflexivity]. apply strip_some in E. exfalso. apply H. rewrite E. right. left.
Qed.
Lemma split_last_skip p x y : split_last p y = None -> (forall u v, x = u ++ v -> v <> [] -> strip p (v ++ y) = None) -> split_last p (x ++ y) = None.
Proof.
  intros Hy. induction x as [|c x IH]; intros H; [exact Hy|]. cbn [app split_last]. rewrite IH.
  - pose proof (H [] (c :: x) eq_refl ltac:(discriminate)) as E. cbn [app] in E. rewrite E. reflexivity.
  - intros u v -> Hv. exact (H (c :: u) v eq_refl Hv).
Qed.
Lemma split_last_at p x r c p' : p = c :: p' -> split_last p (p' ++ r) = None -> split_last p (x ++ p ++ r) = Some (x, r).
Proof.
  intros Hp H. induction x as [|a x IH].
  - cbn [app]. pose proof (strip_app p r) as S. rewrite Hp in *. cbn [app] in *. cbn [split_last]. rewrite H, S. reflexivity.
  - cbn [app split_last]. rewrite IH. reflexivity.
Qed.
Lemma split_elapsed x r : "("%char ∉ r -> split_last (B " (elapsed: ") (x ++ B " (elapsed: " ++ r) = Some (x, r).
Proof.
  intros H. apply (split_last_at _ x r " " (B "(elapsed: ")); [reflexivity|]. change (B "(elapsed: " ++ r) with ("("%char :: B "elapsed: " ++ r).
  assert (N : split_last (B " (elapsed: ") (B "elapsed: " ++ r) = None).
  { apply (split_last_none _ " " "(" (B "elapsed: ")); [reflexivity|]. rewrite elem_of_app. intros [F|F]; [|exact (H F)]. revert F. apply (bool_decide_unpack _). vm_compute. exact I. }
  cbn [split_last]. rewrite N. reflexivity.
Qed.
Lemma split_colon x r : ":"%char ∉ r -> split_last (B ": ") (x ++ B ": " ++ r) = Some (x, r).
Proof.
  intros H. apply (split_last_at _ x r ":" (B " ")); [reflexivity|]. change (B " " ++ r) with (" "%char :: r).
  assert (N : forall s, ":"%char ∉ s -> split_last (B ": ") s = None).
  { intros s. induction s as [|c s IH]; intros F; [reflexivity|]. cbn [split_last]. rewrite IH by (intros G; apply F; right; exact G).
    destruct (strip (B ": ") (c :: s)) as [q|] eqn:E; [|reflexivity]. apply strip_some in E. exfalso. apply F. rewrite E. left. }
  apply N. rewrite elem_of_cons. intros [F|F]; [discriminate|exact (H F)].
Qed.

(** ** A span's lines *)
Definition spaces (n : nat) : bytes := repeat " "%char n.
Definition head_line (r : rspan) : bytes :=
  match r with
  | RSpan id tid _ _ dur orph _ _ =>
      B "[" ++ dec id ++ B "," ++ dec tid ++ B "] " ++ r_call r ++ B " (elapsed: " ++ duration_text dur ++ (if orph then B ", orphaned" else []) ++ B ")"
  end.
Definition r_annots (r : rspan) : list (bytes * bytes) := match r with RSpan _ _ _ _ _ _ annots _ => annots end.
Definition entry_lines (e : nat * rspan) : list bytes := (spaces (fst e) ++ head_line (snd e)) :: map (fun a => spaces (fst e + 2) ++ colon (fst a) (snd a)) (r_annots (snd e)).
Lemma spaces_snoc n : spaces n ++ B " " = spaces (S n).
Proof. unfold spaces. induction n as [|n IH]; [reflexivity|]. cbn [repeat app]. rewrite IH. reflexivity. Qed.
Lemma spaces_two n : spaces n ++ B "  " = spaces (n + 2).
Proof. unfold spaces. rewrite repeat_app. reflexivity. Qed.
Lemma text_unlines r : forall d, concat (text_chunks (spaces d) (span_view r)) = unlines (flat_map entry_lines (below_at d r)).
Proof.
  induction r as [id tid fname args dur orph annots kids IH] using rspan_ind'. intros d. cbn [span_view text_chunks below_at flat_map concat]. rewrite unlines_app. unfold entry_lines at 1. cbn [fst snd r_annots].
  rewrite unlines_cons, unlines_map, concat_app.
  assert (E : text_head (spaces d) id tid fname args (duration_text dur) orph = spaces d ++ head_line (RSpan id tid fname args dur orph annots kids) ++ [newline]).
  { unfold text_head. cbn [head_line r_call]. rewrite <- !app_assoc. destruct orph; reflexivity. }
  rewrite E, <- !app_assoc. do 3 f_equal. f_equal.
  - f_equal. apply map_ext. intros a. unfold text_annot, colon. rewrite <- spaces_two, <- !app_assoc. reflexivity.
  - rewrite spaces_snoc, flat_map_flat. rewrite concat_flat, map_map. unfold unlines. rewrite flat_map_flat, flat_map_concat_map. f_equal. apply map_ext_in. intros k Hk.
    rewrite Forall_forall in IH. apply elem_of_list_In in Hk. apply (IH k Hk (S d)).
Qed.
Lemma spans_text_unlines roots : concat (spans_text_chunks (map span_view roots)) = unlines (flat_map (fun r => flat_map entry_lines (below_at 0 r) ++ [[]]) roots).
Proof.
  unfold spans_text_chunks. rewrite concat_flat, map_map. unfold unlines at 1. rewrite flat_map_flat, flat_map_concat_map. f_equal. apply map_ext. intros r. rewrite concat_app, flat_map_app. f_equal.
  apply (text_unlines r 0).
Qed.
(** ** Reading them *)
Lemma head_read d r : clear_span r -> read_head d (head_line r) = Some (match r with RSpan id tid _ _ dur orph _ _ => TSpan d id tid (r_call r) dur orph [] end).
Proof.
  destruct r as [id tid fname args dur orph annots kids]. intros (Hi & Ht & Hd & _). unfold read_head, head_line. rewrite strip_app.
  change (B "," ++ ?y) with (","%char :: y). rewrite (split_first_app "," (dec id)) by (apply word_free; [apply dec_word|reflexivity]).
  change (B "] " ++ ?y) with ("]"%char :: " "%char :: y). rewrite (split_first_app "]" (dec tid)) by (apply word_free; [apply dec_word|reflexivity]).
  match goal with |- context [if orph then ?a else ?b] => set (o := if orph then a else b) end. set (call := r_call (RSpan id tid fname args dur orph annots kids)). cbv beta.
  match goal with |- context [strip (B " ") (?c :: ?x)] => change (strip (B " ") (c :: x)) with (Some x) end.
  match goal with |- context [strip_end (B ")") ?z] => assert (F : z = (" "%char :: call ++ B " (elapsed: " ++ duration_text dur ++ o) ++ B ")") by (cbn [app]; rewrite <- !app_assoc; reflexivity) end.
  rewrite F, strip_end_app. change (drop 1 (" "%char :: ?y)) with y.
  rewrite split_elapsed.
  - unfold o. destruct orph.
    + rewrite strip_end_app. rewrite !dec_read, duration_read by (unfold int64b in *; lia). reflexivity.
    + rewrite app_nil_r, (strip_end_none _ _ ","%char).
      * rewrite !dec_read, duration_read by (unfold int64b in *; lia). reflexivity.
      * left.
      * apply word_free; [apply duration_word|reflexivity].
  - rewrite elem_of_app. intros [G|G]; [revert G; apply word_free; [apply duration_word|reflexivity]|]. revert G. unfold o. destruct orph; apply (bool_decide_unpack _); vm_compute; exact I.
Qed.
Lemma indent_app n s : indentation (spaces n ++ s) = (n + indentation s)%nat.
Proof. induction n as [|n IH]; [reflexivity|]. change (indentation (spaces (S n) ++ s)) with (S (indentation (spaces n ++ s))). rewrite IH. reflexivity. Qed.
Lemma drop_spaces n s : drop n (spaces n ++ s) = s.
Proof. induction n as [|n IH]; [reflexivity|]. cbn. exact IH. Qed.
Definition with_annots (b : tspan) (l : list bytes) : tspan := TSpan (ts_depth b) (ts_id b) (ts_tid b) (ts_call b) (ts_dur b) (ts_orph b) (ts_annots b ++ l).
Lemma annots_read b l rest : read_spans (Some b) (map (fun x => spaces (ts_depth b + 2) ++ x) l ++ rest) = read_spans (Some (with_annots b l)) rest.
Proof.
  revert b. induction l as [|x l IH]; intros b.
  - unfold with_annots. rewrite app_nil_r. destruct b; reflexivity.
  - cbn [map app]. set (y := spaces (ts_depth b + 2) ++ x). assert (Y : y <> []) by (unfold y; rewrite Nat.add_comm; discriminate).
    cbn [read_spans]. destruct y as [|c y'] eqn:Ey; [destruct (Y eq_refl)|]. rewrite <- Ey in *. clear Ey c y' Y. unfold y at 1. rewrite indent_app.
    assert (L : (ts_depth b + 2 <=? ts_depth b + 2 + indentation x)%nat = true) by (apply Nat.leb_le; lia). rewrite L. unfold y. rewrite drop_spaces.
    etransitivity; [apply (IH (with_annots b [x]))|]. unfold with_annots. cbn [ts_depth ts_id ts_tid ts_call ts_dur ts_orph ts_annots]. rewrite <- app_assoc. reflexivity.
Qed.
Definition prepend (l : list tspan) (r : option (list tspan)) : option (list tspan) := match r with Some m => Some (l ++ m) | None => None end.
Fixpoint steps (p : nat) (es : list (nat * rspan)) : Prop := match es with [] => True | e :: es' => (fst e <= S p)%nat /\ steps (fst e) es' end.
Lemma head_indent r : indentation (head_line r) = 0%nat.
Proof. destruct r. reflexivity. Qed.
Lemma entries_read es : forall b rest, Forall (fun e => clear_span (snd e)) es -> steps (ts_depth b) es ->
  read_spans (Some b) (flat_map entry_lines es ++ [] :: rest) = prepend (b :: map told es) (read_spans None rest).
Proof.
  induction es as [|[d r] es IH]; intros b rest Hc Hs.
  - cbn [flat_map app read_spans map]. destruct (read_spans None rest); reflexivity.
  - apply Forall_cons in Hc as [Hr Hc]. cbn [snd] in Hr. destruct Hs as [Hd Hs]. cbn [fst] in Hd, Hs. cbn [flat_map]. rewrite <- app_assoc. unfold entry_lines at 1. cbn [fst snd app].
    set (y := spaces d ++ head_line r). assert (Y : y <> []) by (unfold y; destruct r; destruct d; discriminate).
    cbn [read_spans]. destruct y as [|c y'] eqn:Ey; [destruct (Y eq_refl)|]. rewrite <- Ey in *. clear Ey c y' Y. unfold y. rewrite indent_app, head_indent, Nat.add_0_r, drop_spaces.
    assert (L : (ts_depth b + 2 <=? d)%nat = false) by (apply Nat.leb_gt; lia). rewrite L, (head_read d r Hr).
    destruct r as [id tid fname args dur orph annots kids]. cbn [r_annots].
    set (h := TSpan d id tid (r_call (RSpan id tid fname args dur orph annots kids)) dur orph []).
    rewrite <- (map_map (fun a : bytes * bytes => colon (fst a) (snd a)) (fun x => spaces (d + 2) ++ x)). change (d + 2)%nat with (ts_depth h + 2)%nat. rewrite annots_read.
    rewrite (IH (with_annots h _) rest Hc Hs). destruct (read_spans None rest); reflexivity.
Qed.
Lemma steps_weaken p q es : (p <= q)%nat -> steps p es -> steps q es.
Proof. destruct es as [|e es]; [auto|]. cbn. intros H [H1 H2]. split; [lia|exact H2]. Qed.
Lemma steps_app k es2 : steps k es2 -> forall es1 p, (k <= p)%nat -> Forall (fun e : nat * rspan => (k <= fst e)%nat) es1 -> steps p es1 -> steps p (es1 ++ es2).
Proof.
  intros H2 es1. induction es1 as [|e es1 IH]; intros p Hp Hf Hs; [exact (steps_weaken k p es2 Hp H2)|]. apply Forall_cons in Hf as [He Hf]. destruct Hs as [H1 Hs]. cbn [app steps]. split; [exact H1|]. apply IH; assumption.
Qed.
Lemma below_depth r : forall d, Forall (fun e : nat * rspan => (d <= fst e)%nat) (below_at d r).
Proof.
  induction r as [id tid fname args dur orph annots kids IH] using rspan_ind'. intros d. cbn [below_at]. apply Forall_cons_2; [reflexivity|]. apply Forall_forall. intros e He.
  apply elem_of_list_In, in_flat_map in He as (k & Hk & He). apply elem_of_list_In in Hk, He. rewrite Forall_forall in IH. specialize (IH k Hk (S d)). rewrite Forall_forall in IH. specialize (IH e He). lia.
Qed.
Lemma below_steps r : forall d p, (d <= S p)%nat -> steps p (below_at d r).
Proof.
  induction r as [id tid fname args dur orph annots kids IH] using rspan_ind'. intros d p Hp. cbn [below_at steps fst]. split; [exact Hp|].
  assert (G : forall ks p, (d <= p)%nat -> Forall (fun r => forall d p, (d <= S p)%nat -> steps p (below_at d r)) ks -> steps p (flat_map (below_at (S d)) ks)).
  { clear. induction ks as [|k ks IHk]; intros p Hp H; [exact I|]. apply Forall_cons in H as [H1 H2]. cbn [flat_map]. apply (steps_app d); [apply IHk; [reflexivity|exact H2]|exact Hp| |apply H1; lia].
    pose proof (below_depth k (S d)) as D. eapply Forall_impl; [exact D|]. intros e He. cbn in *. lia. }
  apply G; [reflexivity|exact IH].
Qed.
Lemma below_snd r : forall d, map snd (below_at d r) = below r.
Proof.
  induction r as [id tid fname args dur orph annots kids IH] using rspan_ind'. intros d. cbn [below_at below map snd]. f_equal. rewrite map_flat. induction IH as [|k ks Hk _ IHk]; [reflexivity|].
  cbn [flat_map]. rewrite Hk, IHk. reflexivity.
Qed.
Lemma roots_read roots : Forall clear_span (flat_map below roots) ->
  read_spans None (flat_map (fun r => flat_map entry_lines (below_at 0 r) ++ [[]]) roots) = Some (map told (flat_map (below_at 0) roots)).
Proof.
  induction roots as [|r roots IH]; intros H; [reflexivity|]. cbn [flat_map] in *. apply Forall_app in H as [Hr H]. specialize (IH H). rewrite <- app_assoc. cbn [app]. rewrite map_app.
  assert (Hc : Forall (fun e => clear_span (snd e)) (below_at 0 r)) by (apply Forall_map; rewrite below_snd; exact Hr).
  pose proof (below_steps r 0 0 ltac:(lia)) as Hs. destruct (below_at 0 r) as [|[d x] es] eqn:E; [destruct r; discriminate|].
  assert (d = 0%nat) by (destruct r; cbn [below_at] in E; congruence). subst d. apply Forall_cons in Hc as [Hx Hc]. cbn [snd] in Hx. destruct Hs as [_ Hs]. cbn [fst] in Hs.
  cbn [flat_map]. rewrite <- app_assoc. unfold entry_lines at 1. cbn [fst snd app spaces repeat]. 
  set (y := head_line x). assert (Y : y <> []) by (unfold y; destruct x; discriminate).
  cbn [read_spans]. destruct y as [|c y'] eqn:Ey; [destruct (Y eq_refl)|]. rewrite <- Ey in *. clear Ey c y' Y. unfold y. rewrite head_indent. change (drop 0 (head_line x)) with (head_line x). rewrite (head_read 0 x Hx).
  destruct x as [id tid fname args dur orph annots kids]. cbn [r_annots].
  set (h := TSpan 0 id tid (r_call (RSpan id tid fname args dur orph annots kids)) dur orph []).
  rewrite <- (map_map (fun a : bytes * bytes => colon (fst a) (snd a)) (fun x => spaces (0 + 2) ++ x)). change (0 + 2)%nat with (ts_depth h + 2)%nat. rewrite annots_read.
  rewrite (entries_read es (with_annots h _) _ Hc Hs), IH. reflexivity.
Qed.
Lemma clear_lines d r : clear_span r -> Forall one_line (entry_lines (d, r)).
Proof.
  destruct r as [id tid fname args dur orph annots kids]. intros (_ & _ & _ & Hf & Ha & Hn).
  assert (S : forall n, one_line (spaces n)) by (intros n; apply one_lit; unfold spaces; induction n as [|n IHn]; [reflexivity|cbn; exact IHn]).
  unfold entry_lines. cbn [fst snd r_annots]. apply Forall_cons_2.
  - apply one_app; [apply S|]. cbn [head_line r_call].
    repeat match goal with |- one_line (_ ++ _) => apply one_app end; try (apply one_word; first [apply dec_word|apply duration_word]); try exact Hf; try (apply one_join; [one|exact Ha]).
    all: destruct orph; one.
  - apply Forall_forall. intros x Hx. apply elem_of_list_In, in_map_iff in Hx as (a & <- & Hin). apply elem_of_list_In in Hin. rewrite Forall_forall in Hn. destruct (Hn a Hin) as [H1 H2].
    apply one_app; [apply S|]. unfold colon. apply one_app; [exact H1|]. apply one_app; [one|exact H2].
Qed.
Lemma spans_text_read roots : Forall clear_span (flat_map below roots) ->
  read_spans_text (concat (spans_text_chunks (map span_view roots))) = Some (map told (flat_map (below_at 0) roots)).
Proof.
  intros H. unfold read_spans_text. rewrite spans_text_unlines, lines_unlines; [apply roots_read, H|].
  apply Forall_forall. intros x Hx. apply elem_of_list_In, in_flat_map in Hx as (r & Hr & Hx). apply in_app_iff in Hx as [Hx|[<-|[]]]; [|one].
  apply in_flat_map in Hx as ([d e] & He & Hx). pose proof (clear_lines d e) as C.
  assert (Ce : clear_span e).
  { rewrite Forall_forall in H. apply H. apply elem_of_list_In, in_flat_map. exists r. split; [exact Hr|]. rewrite <- (below_snd r 0). apply in_map_iff. exists (d, e). split; [reflexivity|exact He]. }
  specialize (C Ce). rewrite Forall_forall in C. apply C, elem_of_list_In, Hx.
Qed.

(** ** The list read determines the trees *)
Definition ends_below (d : nat) (l : list tspan) : Prop := match l with [] => True | x :: _ => (ts_depth x < d)%nat end.
Definition forest (d : nat) (rs : list rspan) : list tspan := map told (flat_map (below_at d) rs).
Lemma forest_cons d r rs t : forest d (r :: rs) ++ t = told (d, r) :: forest (S d) (r_kids r) ++ (forest d rs ++ t).
Proof. unfold forest. cbn [flat_map]. rewrite map_app, <- app_assoc. destruct r. reflexivity. Qed.
Lemma told_depth d r : ts_depth (told (d, r)) = d.
Proof. destruct r. reflexivity. Qed.
Lemma forest_ends d rs t : ends_below d t -> ends_below (S d) (forest d rs ++ t).
Proof. intros H. destruct rs as [|r rs]; [destruct t as [|x t]; [exact I|cbn in *; lia]|]. rewrite forest_cons. unfold ends_below. rewrite told_depth. lia. Qed.
Lemma told_at d r1 r2 : told (d, r1) = told (d, r2) -> told (0%nat, r1) = told (0%nat, r2).
Proof. destruct r1, r2. unfold told. cbn [fst snd]. congruence. Qed.
Lemma forest_inj n : forall d rs1 rs2 t1 t2, (length (forest d rs1 ++ t1) <= n)%nat -> forest d rs1 ++ t1 = forest d rs2 ++ t2 -> ends_below d t1 -> ends_below d t2 ->
  map told_tree rs1 = map told_tree rs2 /\ t1 = t2.
Proof.
  induction n as [|n IH]; intros d rs1 rs2 t1 t2 Hn E H1 H2.
  - destruct rs1 as [|r1 rs1]; [|rewrite forest_cons in Hn; cbn in Hn; lia]. destruct rs2 as [|r2 rs2]; [split; [reflexivity|exact E]|].
    rewrite E, forest_cons in Hn. cbn in Hn. lia.
  - destruct rs1 as [|r1 rs1], rs2 as [|r2 rs2].
    + split; [reflexivity|exact E].
    + rewrite forest_cons in E. cbn [forest flat_map map app] in E. rewrite E in H1. unfold ends_below in H1. rewrite told_depth in H1. lia.
    + rewrite forest_cons in E. cbn [forest flat_map map app] in E. rewrite <- E in H2. unfold ends_below in H2. rewrite told_depth in H2. lia.
    + rewrite !forest_cons in E. rewrite forest_cons in Hn. cbn [length] in Hn. rewrite app_length in Hn.
      assert (E0 : told (d, r1) = told (d, r2)) by congruence. assert (E1 : forest (S d) (r_kids r1) ++ forest d rs1 ++ t1 = forest (S d) (r_kids r2) ++ forest d rs2 ++ t2) by congruence.
      destruct (IH (S d) (r_kids r1) (r_kids r2) (forest d rs1 ++ t1) (forest d rs2 ++ t2)) as [K R]; [rewrite app_length; lia|exact E1|apply forest_ends, H1|apply forest_ends, H2|].
      destruct (IH d rs1 rs2 t1 t2) as [K' T]; [lia|exact R|exact H1|exact H2|]. split; [|exact T]. cbn [map]. f_equal; [|exact K'].
      apply told_at in E0. destruct r1, r2. cbn [r_kids] in K. cbn [told_tree]. rewrite E0, K. reflexivity.
Qed.
Lemma told_trees rs1 rs2 : map told (flat_map (below_at 0) rs1) = map told (flat_map (below_at 0) rs2) -> map told_tree rs1 = map told_tree rs2.
Proof.
  intros E. destruct (forest_inj (length (forest 0 rs1 ++ [])) 0 rs1 rs2 [] []) as [K _]; [lia| |exact I|exact I|exact K]. rewrite !app_nil_r. exact E.
Qed.
