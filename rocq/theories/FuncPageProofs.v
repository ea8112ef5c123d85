(** Proofs for C97. *)
From Coq Require Import Sorted.
From Verif Require Import Base BaseProofs SpecBase SeriesModel Conc ScopeModel ScopeSpec ScopeProofs ScopeProps TransformModel TransformSpec TransformProofs DistModel DistSpec DistProofs DistProps
  PresentModel PresentSpec PresentProofs SvgModel ReportModel ReportSpec ReportProps JsonModel JsonSpec RouteModel FuncPageModel PsProofs FuncStatsModel FuncStatsSpec FuncStatsProofs FuncStatsProps FuncPageSpec.
Local Open Scope Z_scope.
Local Arguments B : simpl never.

Lemma funcs_of_scope range e : ranged range -> e ∈ range ->
  NoDup (scope_funcs (rs_ord (snd e)) (rs_range (snd e))) /\
  forall id, id ∈ scope_funcs (rs_ord (snd e)) (rs_range (snd e)) <-> exists n key, table (rs_sched (snd e)) !! n = Some (Src id KFunc key).
Proof.
  intros [_ H] He. rewrite Forall_forall in H. destruct (H e He) as [P O]. destruct (C58_funcs_exact (rs_sched (snd e)) _ _ O P) as [N E].
  split; [exact N|]. intros id. rewrite elem_of_list_In. apply E.
Qed.
Lemma flat_sorted (l : list (bytes * rscope)) : StronglySorted name_before l ->
  StronglySorted not_later (flat_map (fun e => map (pair (fst e)) (scope_funcs (rs_ord (snd e)) (rs_range (snd e)))) l).
Proof.
  induction 1 as [|x l _ IH Hx]; [constructor|]. cbn [flat_map].
  assert (G : forall ids : list nat, StronglySorted not_later (map (pair (fst x)) ids ++
     flat_map (fun e => map (pair (fst e)) (scope_funcs (rs_ord (snd e)) (rs_range (snd e)))) l)); [|apply G].
  induction ids as [|i ids IHi]; [exact IH|]. cbn [map app]. constructor; [exact IHi|]. apply Forall_app. split.
  - apply Forall_forall. intros y Hy. apply elem_of_list_In, in_map_iff in Hy as (k & <- & _). right. reflexivity.
  - apply Forall_forall. intros y Hy. apply elem_of_list_In, in_flat_map in Hy as (e & He & Hy). apply in_map_iff in Hy as (k & <- & _). left. cbn.
    rewrite Forall_forall in Hx. exact (Hx e (proj2 (elem_of_list_In _ _) He)).
Qed.
Lemma flat_nodup (l : list (bytes * rscope)) : NoDup (map fst l) -> (forall e, e ∈ l -> NoDup (scope_funcs (rs_ord (snd e)) (rs_range (snd e)))) ->
  NoDup (flat_map (fun e => map (pair (fst e)) (scope_funcs (rs_ord (snd e)) (rs_range (snd e)))) l).
Proof.
  induction l as [|x l IH]; intros Hn Hs; [constructor|]. cbn [flat_map]. cbn [map] in Hn. apply NoDup_cons in Hn as [Hx Hn]. apply NoDup_app. split_and!.
  - apply (NoDup_fmap_2 (pair (fst x))), Hs. left.
  - intros y Hy Hy'. apply elem_of_list_In, in_map_iff in Hy as (k & <- & _). apply elem_of_list_In, in_flat_map in Hy' as (e & He & Hy).
    apply in_map_iff in Hy as (k' & E & _). apply pair_equal_spec in E as [E _]. apply Hx. rewrite <- E. apply elem_of_list_In, in_map. exact He.
  - apply IH; [exact Hn|]. intros e He. apply Hs. right. exact He.
Qed.
Lemma page_functions range : ranged range -> all_functions range (page_funcs range).
Proof.
  intros H. destruct H as [Hn Hr]. destruct (scopes_in_order range Hn) as (l & P & S & E). specialize (E range (Permutation_refl _)).
  unfold all_functions, page_funcs. rewrite E. split_and!.
  - apply flat_nodup; [rewrite P; exact Hn|]. intros e He. rewrite P in He. apply (funcs_of_scope range e (conj Hn Hr) He).
  - intros [n id]. rewrite elem_of_list_In, in_flat_map. unfold registered, registered_as. cbn [fst snd]. split.
    + intros (e & He & Hi). apply in_map_iff in Hi as (k & Ek & Hk). apply pair_equal_spec in Ek as [<- <-].
      apply elem_of_list_In in He, Hk. rewrite P in He. apply (funcs_of_scope range e (conj Hn Hr) He) in Hk as (m & key & T).
      exists key, (snd e), m. split; [destruct e; exact He|exact T].
    + intros (key & r & m & He & T). exists (n, r). split; [apply elem_of_list_In; rewrite P; exact He|]. apply in_map_iff. exists id. split; [reflexivity|].
      apply elem_of_list_In. apply (funcs_of_scope range (n, r) (conj Hn Hr) He). exists m, key. exact T.
  - apply flat_sorted, S.
Qed.

Lemma sum_fold (l : list (bytes * Z)) : fold_right Z.add 0 (map snd l) = fold_left (fun a e => a + snd e) l 0.
Proof.
  assert (G : forall a, fold_left (fun a e => a + snd e) l a = a + fold_right Z.add 0 (map snd l)).
  { induction l as [|x l IH]; intros a; cbn; [lia|]. rewrite IH. lia. }
  rewrite G. lia.
Qed.
Section entry.
  Context {F R : Type} (fzero : F) (to32 : Z -> F) (fless : F -> F -> bool) (rng_next : R -> Z * R).
  Context (query : dist Z F R -> list (bytes * Z)) (ravg : dist Z F R -> Z) (fid : nat -> Z).
  Context (func_id : bytes * nat -> Z) (func_key : bytes * nat -> series_key) (reads : bytes * nat -> freads F R).
  Lemma times_ok ds d : dist_of fzero to32 fless rng_next ds d -> times_shown ds (dist_entries (page_dist query ravg d)).
  Proof.
    intros (r & h & Hi & Hr & <-). destruct (C09_exact_counters F R fzero to32 fless rng_next r h d Hi Hr) as (_ & Hs & _ & _ & Hl).
    unfold times_shown, dist_entries. cbn [page_dist rd_query rd_average rd_reservoir rd_recent rd_sum]. rewrite <- Hl, <- Hs. split_and!.
    - apply elem_of_app. right. do 2 right. left.
    - apply elem_of_app. right. do 3 right. left.
    - intros H64 Hn. destruct (C09_full_average F R fzero to32 fless rng_next r h d Hi Hr H64 Hn) as [<- _]. apply elem_of_app. right. left.
  Qed.
  Lemma entry_ok f sched e_at s_at f_at : read_during fzero to32 fless rng_next sched e_at s_at f_at (reads f) ->
    entry_of fid (func_id f) (fst f) (func_short_name (func_key f)) sched e_at s_at f_at (reads f)
      (told_func (page_func query ravg fid func_id func_key reads f)).
  Proof.
    intros [Hp (i & ord & Ho & Hi) He Hs Hf]. unfold entry_of. cbn [told_func page_func tf_id tf_name tf_parents tf_counts tf_errors tf_success tf_failure
      rf_id rf_name rf_parents rf_errors rf_current rf_highwater rf_success rf_panics rf_stimes rf_ftimes].
    split_and!; [reflexivity|reflexivity| | | | | |].
    - exists (fr_parents (reads f)). split_and!; [reflexivity|exact (C16_parents_distinct sched i ord _ Ho Hi)|intros p; exact (C16_parents_sound sched i ord _ p Ho Hi)|].
      exists i. intros pre more j t p err pk d E Hb Ht Hc Hst. subst sched. exact (C16_parents_complete pre more j t p err pk d i ord _ Ho Ht Hc Hst Hb Hi).
    - destruct (C17_counts (fr_success (reads f))) as (_ & _ & S & _). destruct (C17_counts (fr_panics (reads f))) as (P & _).
      destruct (C17_counts e_at) as (_ & E & _).
      assert (X1 : Z.of_nat (length (fs_success (shared (f_exec (fr_success (reads f)))))) = number_of CSuccess (ends (state_after (fr_success (reads f))))).
      { change (shared (f_exec (fr_success (reads f)))) with (state_after (fr_success (reads f))). rewrite S. unfold durations, number_of. rewrite map_length. reflexivity. }
      assert (X2 : fold_right Z.add 0 (map snd (fr_errors (reads f))) = number_of_errors (ends (state_after e_at))).
      { rewrite sum_fold, (fold_sum_perm _ _ 0 He). exact (map_sum_errors _ _ E). }
      eexists _, _. match goal with |- context [errors_sum ?x] => change (errors_sum x) with (fold_right Z.add 0 (map snd (fr_errors (reads f)))) end. rewrite X1, X2.
      change (fs_panics (shared (f_exec (fr_panics (reads f))))) with (fs_panics (state_after (fr_panics (reads f)))). rewrite P. split; [reflexivity|].
      intros Hn.
        assert (N : forall p, p ∈ [fr_current (reads f); fr_highwater (reads f); fr_success (reads f); fr_panics (reads f); e_at; s_at; f_at] -> no_reset p).
        { intros p Hq Hin. rewrite Forall_forall in Hp. destruct (Hp p Hq) as (more & ->). apply Hn, in_app_iff. left. exact Hin. }
        split; [apply (C18_current (fr_current (reads f))), N; left|].
        destruct (C18_highwater (fr_highwater (reads f))) as [(pre & post & E1 & E2) Hmax]; [apply N; right; left|].
        split; [exists pre; split; [exists post; exact E1|symmetry; exact E2]|].
        intros Hh pre' (post' & E'). exact (Hmax Hh pre' post' E').
    - rewrite He. apply NoDup_fst_map_to_list.
    - intros e n. rewrite He, elem_of_map_to_list. apply (C17_counts e_at).
    - apply times_ok. destruct (C17_counts s_at) as (_ & _ & S & _). unfold succeeded. rewrite <- S. exact Hs.
    - apply times_ok. destruct (C17_counts f_at) as (_ & _ & _ & S). unfold succeeded. rewrite <- S. exact Hf.
  Qed.
  Lemma jtimes_ok ds d : dist_of fzero to32 fless rng_next ds d -> jtimes_shown ds (page_jdist query ravg d).
  Proof.
    intros (r & h & Hi & Hr & <-). destruct (C09_exact_counters F R fzero to32 fless rng_next r h d Hi Hr) as (_ & _ & Hm & Hx & Hl).
    split_and!; [exact Hl|exact Hm|exact Hx|]. intros H64 Hn. apply (C09_full_average F R fzero to32 fless rng_next r h d Hi Hr H64 Hn).
  Qed.
  Lemma members_ok f sched e_at s_at f_at : read_during fzero to32 fless rng_next sched e_at s_at f_at (reads f) ->
    members_of fid (func_id f) (fst f) (func_short_name (func_key f)) sched e_at s_at f_at (reads f) (page_jfunc query ravg fid func_id func_key reads f).
  Proof.
    intros H. destruct (entry_ok f sched e_at s_at f_at H) as (_ & _ & Hp & (c & h & Hc & Hn) & Hd & He & _ & _).
    destruct H as [_ _ _ Hs Hf]. cbn [told_func page_func tf_parents tf_counts tf_errors rf_parents rf_errors rf_current rf_highwater rf_success rf_panics] in Hp, Hc, Hd, He.
    assert (X : forall (a b c' d e a' b' c'' d' e' : Z), [(B "current", a); (B "highwater", b); (B "success", c'); (B "errors", d); (B "panics", e)] =
      [(B "current", a'); (B "highwater", b'); (B "success", c''); (B "errors", d'); (B "panics", e')] -> a = a' /\ b = b' /\ c' = c'' /\ e = e') by (intros; split_and!; congruence).
    apply X in Hc as (<- & <- & Hsu & Hpa). clear X. unfold members_of.
    cbn [page_jfunc jf_id jf_package jf_name jf_parents jf_success jf_panics jf_current jf_highwater jf_errors jf_stimes jf_ftimes].
    split_and!; try reflexivity; try assumption.
    - apply jtimes_ok. destruct (C17_counts s_at) as (_ & _ & S & _). unfold succeeded. rewrite <- S. exact Hs.
    - apply jtimes_ok. destruct (C17_counts f_at) as (_ & _ & _ & S). unfold succeeded. rewrite <- S. exact Hf.
  Qed.
End entry.
