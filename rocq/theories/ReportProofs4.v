(** FuncsText can be read back. *)
From Verif Require Import Base BaseProofs PresentModel PresentSpec PresentProofs SvgModel SvgSpec SvgNumProofs ArgsSpec ReportModel ReportSpec ReportProofs ReportProofs2 ReportProofs3.
Local Open Scope Z_scope.
Local Arguments B : simpl never.

Lemma dec_read' v : int64b v -> read_dec (dec v) = Some v.
Proof. intros H. apply dec_read. unfold int64b in H. lia. Qed.
Lemma duration_read' v : int64b v -> read_duration (duration_text v) = Some v.
Proof. intros H. apply duration_read. unfold int64b in H. lia. Qed.

(** ** Lists with commas *)
Lemma items_join l : Forall (fun x => ","%char ∉ x) l -> l <> [] -> forall fuel, (length l <= S fuel)%nat -> items fuel (join (B ", ") l) = l.
Proof.
  induction l as [|x l IH]; intros H N fuel Hf; [destruct (N eq_refl)|]. apply Forall_cons in H as [Hx H]. destruct l as [|y l].
  - cbn [join]. destruct fuel; cbn [items]; [reflexivity|]. rewrite split_first_none by exact Hx. reflexivity.
  - change (join (B ", ") (x :: y :: l)) with (x ++ ","%char :: " "%char :: join (B ", ") (y :: l)).
    destruct fuel as [|fuel]; [cbn in Hf; lia|]. cbn [items]. rewrite split_first_app by exact Hx. change (drop 1 (" "%char :: ?s)) with s. rewrite IH; [reflexivity|exact H|discriminate|cbn in *; lia].
Qed.
Lemma join_length l : (length l <= S (length (join (B ", ") l)))%nat.
Proof.
  induction l as [|x l IH]; [cbn; lia|]. destruct l as [|y l]; [cbn; lia|].
  change (join (B ", ") (x :: y :: l)) with (x ++ ","%char :: " "%char :: join (B ", ") (y :: l)). rewrite app_length. cbn [length] in *. lia.
Qed.
Lemma items_map {A} (f : A -> bytes) l : Forall (fun a => ","%char ∉ f a) l -> l <> [] -> items (length (join (B ", ") (map f l))) (join (B ", ") (map f l)) = map f l.
Proof. intros H N. apply items_join; [apply Forall_map; exact H|destruct l; [destruct (N eq_refl)|discriminate]|apply join_length]. Qed.
Lemma all_map {A C} (f : C -> option A) (g : A -> C) l : Forall (fun a => f (g a) = Some a) l -> all_of (map f (map g l)) = Some l.
Proof. intros H. induction H as [|a l Ha H IH]; [reflexivity|]. cbn [map all_of]. rewrite Ha, IH. reflexivity. Qed.
Lemma dec_nonempty v : int64b v -> dec v <> [].
Proof. intros H E. pose proof (dec_read' v H) as R. rewrite E in R. discriminate R. Qed.
Definition okp (p : option Z) : Prop := match p with Some q => int64b q | None => True end.
Lemma parent_read p : okp p -> read_parent (parent_text p) = Some p.
Proof.
  destruct p as [q|]; intros H; [|reflexivity]. unfold read_parent, parent_text. destruct (beqb (dec q) (B "entry")) eqn:E.
  - apply beqb_true in E. pose proof (dec_read' q H) as R. rewrite E in R. vm_compute in R. discriminate R.
  - rewrite (dec_read' q H). reflexivity.
Qed.
Lemma parent_free c p : dur_char c = false -> c ∉ B "entry" -> c ∉ parent_text p.
Proof. intros H1 H2. destruct p as [q|]; [apply word_free; [apply dec_word|exact H1]|exact H2]. Qed.
Lemma lit_free c s : existsb (Ascii.eqb c) s = false -> c ∉ s.
Proof.
  intros H F. assert (G : existsb (Ascii.eqb c) s = true); [|congruence]. apply existsb_exists. exists c. split; [apply elem_of_list_In, F|apply Ascii.eqb_refl].
Qed.
Lemma parents_read ps : Forall okp ps -> read_parents (join (B ", ") (map parent_text ps)) = Some ps.
Proof.
  intros H. destruct ps as [|p ps]; [reflexivity|]. unfold read_parents. set (s := join (B ", ") (map parent_text (p :: ps))).
  assert (N : s <> []).
  { unfold s. apply Forall_cons in H as [Hp _]. assert (parent_text p <> []) as P by (destruct p as [q|]; [apply dec_nonempty; exact Hp|discriminate]).
    destruct ps as [|p' ps]; [exact P|]. change (join (B ", ") (map parent_text (p :: p' :: ps))) with (parent_text p ++ B ", " ++ join (B ", ") (map parent_text (p' :: ps))).
    destruct (parent_text p); [destruct (P eq_refl)|discriminate]. }
  destruct s as [|c s'] eqn:E; [destruct (N eq_refl)|]. rewrite <- E. unfold s. clear E N s c s'.
  rewrite items_map; [|apply Forall_forall; intros q _; apply parent_free; [reflexivity|apply lit_free; reflexivity]|discriminate].
  apply all_map. eapply Forall_impl; [exact H|]. exact parent_read.
Qed.

(** ** Entries *)
Definition entry_of (show : Z -> bytes) (e : bytes * Z) : bytes := fst e ++ B ": " ++ show (snd e).
Lemma entry_read (read : bytes -> option Z) (show : Z -> bytes) e : dur_word (show (snd e)) -> read (show (snd e)) = Some (snd e) -> read_entry read (entry_of show e) = Some e.
Proof.
  intros H1 H2. unfold read_entry, entry_of. rewrite split_colon by (apply word_free; [exact H1|reflexivity]). rewrite H2. destruct e; reflexivity.
Qed.
Lemma block_read p read show es rest : Forall (fun e => dur_word (show (snd e)) /\ read (show (snd e)) = Some (snd e)) es -> match rest with x :: _ => strip p x = None | [] => True end ->
  read_block p read (map (fun e => p ++ entry_of show e) es ++ rest) = Some (es, rest).
Proof.
  intros H R. induction H as [|e es [H1 H2] H IH]; cbn [map app].
  - destruct rest as [|x rest]; [reflexivity|]. cbn [read_block]. rewrite R. reflexivity.
  - cbn [read_block]. rewrite strip_app, (entry_read read show e H1 H2), IH. reflexivity.
Qed.
Definition counts_of (f : rfunc) : list (bytes * Z) :=
  [(B "current", rf_current f); (B "highwater", rf_highwater f); (B "success", rf_success f); (B "errors", errors_sum f); (B "panics", rf_panics f)].
Lemma counts_join f : clear_counts f -> counts_text f = join (B ", ") (map (entry_of dec) (counts_of f)).
Proof.
  intros H. unfold counts_text. rewrite (proj1 (errors_total f H)). unfold counts_of, entry_of. cbn [map join fst snd]. rewrite <- !app_assoc. reflexivity.
Qed.
(** ** A function's lines *)
Definition times_lines (d : rdist) : list bytes := map (fun e => B "    " ++ entry_of duration_text e) (dist_entries d).
Definition func_lines (f : rfunc) : list bytes :=
  [B "[" ++ dec (rf_id f) ++ B "] " ++ rf_name f; B "  parents: " ++ join (B ", ") (map parent_text (rf_parents f)); B "  " ++ counts_text f] ++
  map (fun e => B "  error " ++ entry_of dec e) (rf_errors f) ++ [B "  success times:"] ++ times_lines (rf_stimes f) ++ [B "  failure times:"] ++ times_lines (rf_ftimes f) ++ [[]].
Lemma dist_lines_eq d : format_dist d (B "    ") = unlines (times_lines d).
Proof.
  unfold format_dist, times_lines, dist_entries. rewrite map_app, unlines_app, unlines_map. f_equal.
  - f_equal. apply map_ext. intros e. unfold dist_line, entry_of. rewrite <- !app_assoc. reflexivity.
  - cbn [map]. rewrite !unlines_cons. unfold dist_line, entry_of. cbn [fst snd]. rewrite <- !app_assoc. cbn [unlines flat_map]. reflexivity.
Qed.
Lemma func_text_unlines f : func_text (func_view f) = unlines (func_lines f).
Proof.
  unfold func_text, func_lines. rewrite !unlines_app, !unlines_cons, unlines_map. cbn [func_view fv_id fv_name fv_parents fv_counts fv_errors fv_times]. rewrite <- !dist_lines_eq.
  replace (concat (map err_text (rf_errors f))) with (concat (map (fun e => (B "  error " ++ entry_of dec e) ++ [newline]) (rf_errors f))) by (f_equal; apply map_ext; intros e; unfold err_text, entry_of; rewrite <- !app_assoc; reflexivity).
  cbn [unlines flat_map]. rewrite <- !app_assoc. reflexivity.
Qed.
Lemma funcs_text_unlines fs : concat (map func_text (map func_view fs)) = unlines (flat_map func_lines fs).
Proof.
  induction fs as [|f fs IH]; [reflexivity|]. cbn [map concat flat_map]. rewrite unlines_app, func_text_unlines, IH. reflexivity.
Qed.
Lemma dist_ok d : clear_dist d -> Forall (fun e => dur_word (duration_text (snd e)) /\ read_duration (duration_text (snd e)) = Some (snd e)) (dist_entries d).
Proof.
  intros (Hq & H1 & H2 & H3 & H4). unfold dist_entries. apply Forall_app. split.
  - eapply Forall_impl; [exact Hq|]. intros e [_ He]. split; [apply duration_word|apply duration_read', He].
  - repeat apply Forall_cons_2; try apply Forall_nil_2; (split; [apply duration_word|apply duration_read'; assumption]).
Qed.
Lemma errors_int f : clear_counts f -> Forall (fun e => int64b (snd e)) (rf_errors f) /\ int64b (errors_sum f) /\ int64b (rf_panics f).
Proof.
  intros (He & Hp & Hs). unfold errors_sum in *.
  assert (G : forall l, Forall (fun e : bytes * Z => 0 <= snd e) l -> 0 <= fold_right Z.add 0 (map snd l) /\ Forall (fun e => snd e <= fold_right Z.add 0 (map snd l)) l).
  { clear. induction 1 as [|e l H Hl [IH1 IH2]]; [split; [reflexivity|apply Forall_nil_2]|]. cbn [map fold_right]. split; [lia|]. apply Forall_cons_2; [lia|]. eapply Forall_impl; [exact IH2|]. cbn. intros; lia. }
  destruct (G _ He) as [G1 G2]. unfold int64b. split_and!; try lia.
  rewrite Forall_forall in *. intros e Hin. specialize (G2 e Hin). specialize (He e Hin). cbn in *. lia.
Qed.
Lemma func_read f rest : clear_func f -> read_func (func_lines f ++ rest) = Some (told_func f, rest).
Proof.
  intros (Hid & Hn & Hp & Hc & Hh & Hs & He & Hcc & Hst & Hft). destruct (errors_int f Hcc) as (E1 & E2 & E3).
  unfold func_lines. rewrite <- !app_assoc. cbn [app]. cbn [read_func].
  assert (S1 : strip (B "[") (B "[" ++ dec (rf_id f) ++ B "] " ++ rf_name f) = Some (dec (rf_id f) ++ "]"%char :: " "%char :: rf_name f)) by apply strip_app.
  rewrite S1, !strip_app. rewrite split_first_app by (apply word_free; [apply dec_word|reflexivity]). rewrite (dec_read' _ Hid).
  assert (S2 : strip (B " ") (" "%char :: rf_name f) = Some (rf_name f)) by apply (strip_app (B " ")).
  rewrite S2, (parents_read _ Hp), (counts_join f Hcc), items_map; [|apply Forall_forall; intros e He'; unfold entry_of|discriminate].
  - rewrite (all_map (read_entry read_dec) (entry_of dec)).
    + rewrite (block_read (B "  error ") read_dec dec); [|eapply Forall_impl; [exact E1|]; intros e He'; split; [apply dec_word|apply dec_read', He']|reflexivity].
      rewrite (proj2 (beqb_true _ _) eq_refl). unfold times_lines.
      rewrite (block_read (B "    ") read_duration duration_text); [|apply dist_ok, Hst|reflexivity].
      rewrite (proj2 (beqb_true _ _) eq_refl).
      rewrite (block_read (B "    ") read_duration duration_text); [|apply dist_ok, Hft|reflexivity]. reflexivity.
    + unfold counts_of. repeat apply Forall_cons_2; try apply Forall_nil_2; (apply entry_read; [apply dec_word|apply dec_read'; assumption]).
  - rewrite !not_elem_of_app. split_and!; [|apply lit_free; reflexivity|apply word_free; [apply dec_word|reflexivity]].
    unfold counts_of in He'. repeat (apply elem_of_cons in He' as [->|He']; [apply lit_free; reflexivity|]). inversion He'.
Qed.
Lemma funcs_read fs : forall fuel, (length fs <= fuel)%nat -> Forall clear_func fs -> read_funcs fuel (flat_map func_lines fs) = Some (map told_func fs).
Proof.
  induction fs as [|f fs IH]; intros fuel Hf H; [destruct fuel; reflexivity|]. apply Forall_cons in H as [Hx H]. destruct fuel as [|fuel]; [cbn in Hf; lia|].
  cbn [flat_map]. cbn [length] in Hf. pose proof (func_read f (flat_map func_lines fs) Hx) as R. destruct (func_lines f ++ flat_map func_lines fs) as [|x l] eqn:E; [discriminate R|]. cbn [read_funcs]. rewrite R, IH by (try lia; exact H). reflexivity.
Qed.
Lemma func_one_lines f : clear_func f -> Forall one_line (func_lines f).
Proof.
  intros (Hid & Hn & Hp & Hc & Hh & Hs & He & Hcc & Hst & Hft).
  assert (T : forall d, clear_dist d -> Forall one_line (times_lines d)).
  { intros d (Hq & _). unfold times_lines, dist_entries. apply Forall_map. apply Forall_app. split.
    - eapply Forall_impl; [exact Hq|]. intros e [H1 _]. unfold entry_of. apply one_app; [one|]. apply one_app; [exact H1|]. apply one_app; [one|apply one_word, duration_word].
    - repeat apply Forall_cons_2; try apply Forall_nil_2; unfold entry_of; cbn [fst snd]; (apply one_app; [one|]; apply one_app; [one|]; apply one_app; [one|apply one_word, duration_word]). }
  unfold func_lines. cbn [app]. repeat apply Forall_cons_2.
  - apply one_app; [one|]. apply one_app; [apply one_word, dec_word|]. apply one_app; [one|exact Hn].
  - apply one_app; [one|]. apply one_join; [one|]. apply Forall_map, Forall_forall. intros p _. apply parent_free; [reflexivity|apply lit_free; reflexivity].
  - apply one_app; [one|]. unfold counts_text. repeat match goal with |- one_line (_ ++ _) => apply one_app end; first [apply one_word, dec_word|one].
  - apply Forall_app. split; [apply Forall_map; eapply Forall_impl; [exact He|]; intros e H1; unfold entry_of; apply one_app; [one|]; apply one_app; [exact H1|]; apply one_app; [one|apply one_word, dec_word]|].
    apply Forall_cons_2; [one|]. apply Forall_app. split; [apply T, Hst|]. apply Forall_cons_2; [one|]. apply Forall_app. split; [apply T, Hft|]. apply Forall_cons_2; [one|apply Forall_nil_2].
Qed.
Lemma funcs_text_read fs : Forall clear_func fs -> read_funcs_text (concat (map func_text (map func_view fs))) = Some (map told_func fs).
Proof.
  intros H. unfold read_funcs_text. rewrite funcs_text_unlines, lines_unlines.
  - apply funcs_read; [|exact H]. clear. induction fs as [|f fs IH]; [cbn; lia|]. cbn [flat_map length]. rewrite app_length. unfold func_lines at 1. cbn [app length]. lia.
  - induction H as [|f fs Hf H IH]; [apply Forall_nil_2|]. cbn [flat_map]. apply Forall_app. split; [apply func_one_lines, Hf|exact IH].
Qed.
