(** Proofs about minStart, maxEnd and timeToX. *)
From Verif Require Import Base BaseProofs LayoutModel LayoutSpec.
Open Scope Z_scope.

Lemma min_start_ok zero_time spans : spans <> [] -> (forall s, s ∈ spans -> sp_start s <> zero_time) ->
  (exists s, s ∈ spans /\ sp_start s = min_start zero_time spans) /\ forall s, s ∈ spans -> min_start zero_time spans <= sp_start s.
Proof.
  unfold min_start. set (f := fun m s => if (m =? zero_time) || (sp_start s <? m) then sp_start s else m).
  induction spans as [|a spans IH] using rev_ind; [contradiction|]. intros _ Hz. rewrite fold_left_app. cbn [fold_left].
  assert (Ha : sp_start a <> zero_time) by (apply Hz, elem_of_app; right; left).
  destruct (decide (spans = [])) as [->|Hne].
  - cbn [fold_left app]. unfold f. rewrite Z.eqb_refl. cbn [orb]. split.
    + exists a. split; [left|reflexivity].
    + intros s Hs. apply elem_of_list_singleton in Hs as ->. lia.
  - destruct (IH Hne) as ((s0 & Hs0 & E0) & Hle). { intros s Hs. apply Hz, elem_of_app. auto. }
    set (m := fold_left f spans zero_time) in *. clearbody m.
    assert (m <> zero_time). { rewrite <- E0. apply Hz, elem_of_app. auto. }
    unfold f. destruct (Z.eqb_spec m zero_time) as [|_]; [contradiction|]. cbn [orb]. destruct (Z.ltb_spec (sp_start a) m).
    + split; [exists a; split; [apply elem_of_app; right; left|reflexivity]|].
      intros s Hs. apply elem_of_app in Hs as [Hs|Hs]; [specialize (Hle s Hs); lia|]. apply elem_of_list_singleton in Hs as ->. lia.
    + split; [exists s0; split; [apply elem_of_app; auto|exact E0]|].
      intros s Hs. apply elem_of_app in Hs as [Hs|Hs]; [specialize (Hle s Hs); lia|]. apply elem_of_list_singleton in Hs as ->. lia.
Qed.
Lemma max_end_ok zero_time spans : spans <> [] -> (forall s, s ∈ spans -> sp_finish s <> zero_time) ->
  (exists s, s ∈ spans /\ sp_finish s = max_end zero_time spans) /\ forall s, s ∈ spans -> sp_finish s <= max_end zero_time spans.
Proof.
  unfold max_end. set (f := fun m s => if (m =? zero_time) || (m <? sp_finish s) then sp_finish s else m).
  induction spans as [|a spans IH] using rev_ind; [contradiction|]. intros _ Hz. rewrite fold_left_app. cbn [fold_left].
  assert (Ha : sp_finish a <> zero_time) by (apply Hz, elem_of_app; right; left).
  destruct (decide (spans = [])) as [->|Hne].
  - cbn [fold_left app]. unfold f. rewrite Z.eqb_refl. cbn [orb]. split.
    + exists a. split; [left|reflexivity].
    + intros s Hs. apply elem_of_list_singleton in Hs as ->. lia.
  - destruct (IH Hne) as ((s0 & Hs0 & E0) & Hle). { intros s Hs. apply Hz, elem_of_app. auto. }
    set (m := fold_left f spans zero_time) in *. clearbody m.
    assert (m <> zero_time). { rewrite <- E0. apply Hz, elem_of_app. auto. }
    unfold f. destruct (Z.eqb_spec m zero_time) as [|_]; [contradiction|]. cbn [orb]. destruct (Z.ltb_spec m (sp_finish a)).
    + split; [exists a; split; [apply elem_of_app; right; left|reflexivity]|].
      intros s Hs. apply elem_of_app in Hs as [Hs|Hs]; [specialize (Hle s Hs); lia|]. apply elem_of_list_singleton in Hs as ->. lia.
    + split; [exists s0; split; [apply elem_of_app; auto|exact E0]|].
      intros s Hs. apply elem_of_app in Hs as [Hs|Hs]; [specialize (Hle s Hs); lia|]. apply elem_of_list_singleton in Hs as ->. lia.
Qed.

Lemma time_to_x_in mn mx t : mn <= t <= mx -> mn < mx -> (mx - mn) * 1200 < 2 ^ 63 ->
  time_to_x mn mx t = Some ((t - mn) * 1200 / (mx - mn)).
Proof.
  intros Ht Hlt Hd. unfold time_to_x, graph_width.
  assert (H1 : in64 (mx - mn)) by (unfold in64; lia). assert (H2 : in64 (t - mn)) by (unfold in64; lia).
  assert (H3 : in64 ((t - mn) * 1200)) by (unfold in64; lia).
  cbv zeta. rewrite (wrap64_id (mx - mn)), (wrap64_id (t - mn)), (wrap64_id ((t - mn) * 1200)) by assumption.
  destruct (Z.eqb_spec (mx - mn) 0) as [|_]; [lia|]. rewrite Z.quot_div_nonneg by lia. f_equal. apply wrap64_id. unfold in64.
  assert (0 <= (t - mn) * 1200 / (mx - mn)) by (apply Z.div_pos; lia).
  assert ((t - mn) * 1200 / (mx - mn) <= 1200) by (apply Z.div_le_upper_bound; nia). lia.
Qed.
Lemma scaled_range mn mx t : mn <= t <= mx -> mn < mx -> 0 <= (t - mn) * 1200 / (mx - mn) <= 1200.
Proof. intros. split; [apply Z.div_pos; lia|apply Z.div_le_upper_bound; nia]. Qed.
Lemma scaled_mono mn mx t t' : mn < mx -> t <= t' -> (t - mn) * 1200 / (mx - mn) <= (t' - mn) * 1200 / (mx - mn).
Proof. intros. apply Z.div_le_mono; nia. Qed.

Lemma bar_x_spec zero_time spans : spans <> [] ->
  (forall s, s ∈ spans -> sp_start s <> zero_time /\ sp_finish s <> zero_time /\ sp_start s <= sp_finish s) ->
  let mn := min_start zero_time spans in let mx := max_end zero_time spans in
  mn < mx -> (mx - mn) * 1200 < 2 ^ 63 ->
  forall s, s ∈ spans -> exists l w, bar_x mn mx s = Some (l, w) /\ 0 <= l <= 1200 /\ 1 <= w /\ l + w <= 1201 /\
    l = (sp_start s - mn) * 1200 / (mx - mn) /\ (sp_finish s - mn) * 1200 / (mx - mn) <= l + w.
Proof.
  intros Hne Hs mn mx Hlt Hd s Hin.
  destruct (min_start_ok zero_time spans Hne (fun s H => proj1 (Hs s H))) as [_ Hmn].
  destruct (max_end_ok zero_time spans Hne (fun s H => proj1 (proj2 (Hs s H)))) as [_ Hmx]. fold mn in Hmn. fold mx in Hmx.
  specialize (Hmn s Hin). specialize (Hmx s Hin). destruct (Hs s Hin) as (_ & _ & Hle). clearbody mn mx.
  unfold bar_x. rewrite !time_to_x_in by lia.
  pose proof (scaled_range mn mx (sp_start s) ltac:(lia) Hlt) as R1. pose proof (scaled_range mn mx (sp_finish s) ltac:(lia) Hlt) as R2.
  pose proof (scaled_mono mn mx (sp_start s) (sp_finish s) Hlt Hle) as M.
  set (l := (sp_start s - mn) * 1200 / (mx - mn)) in *. set (r := (sp_finish s - mn) * 1200 / (mx - mn)) in *. clearbody l r.
  rewrite wrap64_id by (unfold in64; lia). exists l, (if 1 <? r - l then r - l else 1).
  destruct (Z.ltb_spec 1 (r - l)); split_and!; try reflexivity; lia.
Qed.
