From Verif Require Import Base BaseProofs SeriesModel SeriesSpec SeriesProofs TagSetModel TagSetSpec.

(** What a pointer shows. *)
Definition shown (h : heap) (t : option nat) : gmap bytes bytes := map_contents h (ts_map h t).

Definition HInv (h : heap) : Prop :=
  Forall (fun r => r < length (h_maps h)) (h_user h) /\
  (forall i o, h_sets h !! i = Some o ->
     (forall r, ts_all o = Some r -> r < length (h_maps h) /\ r ∉ h_user h) /\
     (ts_str o = [] \/ ts_str o = write_tags (map_to_list (map_contents h (ts_all o))))).

Lemma HInv_init : HInv heap_init.
Proof. split; [constructor|]. intros i o H. cbn in H. rewrite lookup_nil in H. discriminate. Qed.

Lemma map_contents_app h m sets user r :
  (forall i, r = Some i -> i < length (h_maps h)) ->
  map_contents (Heap (h_maps h ++ [m]) sets user) r = map_contents h r.
Proof.
  destruct r as [i|]; [|reflexivity]. intros H. cbn.
  rewrite lookup_app_l by auto. reflexivity.
Qed.

Lemma alloc_set_inv h m : HInv h -> HInv (fst (alloc_set h m)).
Proof.
  intros [Hu Hs]. split.
  - cbn. eapply Forall_impl; [exact Hu|]. cbn. intros r Hr. rewrite app_length; cbn; lia.
  - intros i o Hi. cbn in Hi.
    apply lookup_app_Some in Hi as [Hi|[Hle Hi]].
    + destruct (Hs i o Hi) as [H1 H2]. split.
      * intros r Hr. destruct (H1 r Hr). cbn. rewrite app_length; cbn. split; [lia|assumption].
      * destruct H2 as [->|H2]; [auto|]. right. unfold alloc_set. cbn [fst].
        rewrite map_contents_app; [assumption|]. intros j Hj. apply H1 in Hj. tauto.
    + apply list_lookup_singleton_Some in Hi as [_ <-]. cbn. split; [|auto].
      intros r Hr. injection Hr as <-. rewrite app_length; cbn. split; [lia|].
      intros Hin. rewrite Forall_forall in Hu. apply Hu in Hin. lia.
Qed.

Lemma alloc_set_shown h m t :
  HInv h -> valid h t -> shown (fst (alloc_set h m)) t = shown h t.
Proof.
  intros [Hu Hs] Hv. destruct t as [i|]; [|reflexivity]. cbn in Hv.
  unfold shown. unfold alloc_set; cbn [fst ts_map h_sets].
  rewrite lookup_app_l by assumption.
  apply map_contents_app. intros r Hr.
  destruct (h_sets h !! i) as [o|] eqn:E; [|discriminate].
  apply (Hs i o E) in Hr. tauto.
Qed.

Lemma alloc_set_new h m : shown (fst (alloc_set h m)) (Some (snd (alloc_set h m))) = m.
Proof.
  unfold shown, alloc_set; cbn. rewrite lookup_app_r by lia. rewrite Nat.sub_diag. cbn.
  rewrite lookup_app_r by lia. rewrite Nat.sub_diag. reflexivity.
Qed.

Lemma ts_string_inv h t : HInv h -> HInv (fst (ts_string h t)).
Proof.
  intros [Hu Hs]. destruct t as [i|]; [|split; assumption]. cbn.
  destruct (h_sets h !! i) as [o|] eqn:E; [|split; assumption].
  destruct (beqb (ts_str o) []) eqn:Eb; [|split; assumption]. cbn.
  split; [assumption|]. intros j o' Hj. cbn in Hj.
  destruct (decide (i = j)) as [<-|Hne].
  - rewrite list_lookup_insert in Hj by (eapply lookup_lt_Some, E). injection Hj as <-. cbn.
    destruct (Hs i o E) as [H1 _]. split; [assumption|]. right. reflexivity.
  - rewrite list_lookup_insert_ne in Hj by assumption. apply (Hs j o' Hj).
Qed.

Lemma ts_string_shown h t t' : shown (fst (ts_string h t)) t' = shown h t'.
Proof.
  destruct t as [i|]; [|reflexivity]. cbn.
  destruct (h_sets h !! i) as [o|] eqn:E; [|reflexivity].
  destruct (beqb (ts_str o) []); [|reflexivity].
  destruct t' as [j|]; [|reflexivity]. unfold shown. cbn [fst ts_map h_sets].
  destruct (decide (i = j)) as [<-|Hne].
  - rewrite list_lookup_insert by (eapply lookup_lt_Some, E). rewrite E. cbn. reflexivity.
  - rewrite list_lookup_insert_ne by assumption. reflexivity.
Qed.

Lemma ts_step_inv h o : HInv h -> HInv (ts_step h o).
Proof.
  intros H. destruct o as [|t k v|t tags|t u| |u k v|t]; cbn [ts_step].
  - destruct H as [Hu Hs]. split; [assumption|]. intros i o Hi. cbn in Hi.
    apply lookup_app_Some in Hi as [Hi|[Hle Hi]]; [apply (Hs i o Hi)|].
    apply list_lookup_singleton_Some in Hi as [_ <-]. cbn. split; [discriminate|auto].
  - apply alloc_set_inv, H.
  - apply alloc_set_inv, H.
  - apply alloc_set_inv, H.
  - destruct H as [Hu Hs]. split.
    + cbn. rewrite app_length. cbn. apply Forall_app. split.
      * eapply Forall_impl; [exact Hu|]. cbn; intros; lia.
      * constructor; [lia|constructor].
    + intros i o Hi. cbn in Hi. destruct (Hs i o Hi) as [H1 H2]. cbn. split.
      * intros r Hr. destruct (H1 r Hr). rewrite app_length; cbn. split; [lia|].
        rewrite elem_of_app, elem_of_list_singleton. intros [?|?]; [contradiction|lia].
      * destruct H2 as [->|H2]; [auto|right].
        rewrite map_contents_app; [assumption|]. intros j Hj. apply H1 in Hj. tauto.
  - destruct (user_ref h u) as [r|] eqn:Er; [|assumption].
    assert (Hr : r ∈ h_user h) by (eapply elem_of_list_lookup_2, Er).
    destruct H as [Hu Hs]. split.
    + cbn. rewrite alter_length. assumption.
    + intros i o Hi. cbn in Hi. destruct (Hs i o Hi) as [H1 H2]. cbn. rewrite alter_length. split.
      * assumption.
      * destruct H2 as [->|H2]; [auto|right]. rewrite H2. f_equal. f_equal.
        unfold map_contents. cbn. destruct (ts_all o) as [s|] eqn:Es; [|reflexivity].
        rewrite list_lookup_alter_ne; [reflexivity|]. intros ->. destruct (H1 s eq_refl). contradiction.
  - apply ts_string_inv, H.
Qed.

Lemma ts_step_shown h o t : HInv h -> valid h t -> shown (ts_step h o) t = shown h t.
Proof.
  intros H Hv. destruct o as [|t' k v|t' tags|t' u| |u k v|t']; cbn [ts_step].
  - destruct t as [i|]; [|reflexivity]. cbn in Hv. unfold shown. cbn.
    rewrite lookup_app_l by assumption. reflexivity.
  - apply alloc_set_shown; assumption.
  - apply alloc_set_shown; assumption.
  - apply alloc_set_shown; assumption.
  - destruct t as [i|]; [|reflexivity]. unfold shown. cbn [ts_map h_sets]. apply map_contents_app.
    intros r Hr. destruct (h_sets h !! i) as [o|] eqn:E; [|discriminate].
    destruct H as [_ Hs]. destruct (Hs i o E) as [H1 _]. destruct (H1 r Hr). assumption.
  - destruct (user_ref h u) as [r|] eqn:Er; [|reflexivity].
    assert (Hr : r ∈ h_user h) by (eapply elem_of_list_lookup_2, Er).
    destruct t as [i|]; [|reflexivity]. unfold shown. cbn [ts_map h_sets].
    destruct (h_sets h !! i) as [o|] eqn:E; [|reflexivity].
    destruct H as [_ Hs]. destruct (Hs i o E) as [H1 _].
    unfold map_contents. cbn. destruct (ts_all o) as [s|] eqn:Es; [|reflexivity].
    rewrite list_lookup_alter_ne; [reflexivity|]. intros ->. destruct (H1 s eq_refl). contradiction.
  - apply ts_string_shown.
Qed.

Lemma ts_step_valid h o t : valid h t -> valid (ts_step h o) t.
Proof.
  destruct t as [i|]; [|auto]. cbn. intros H.
  destruct o as [|t' k v|t' tags|t' u| |u k v|t']; cbn;
    rewrite ?app_length; cbn; try lia.
  - destruct (user_ref h u); cbn; assumption.
  - destruct t' as [j|]; cbn; [|assumption].
    destruct (h_sets h !! j); cbn; [|assumption].
    destruct (beqb _ _); cbn; rewrite ?insert_length; assumption.
Qed.

Lemma ts_run_inv ops h : HInv h -> HInv (ts_run ops h).
Proof.
  revert h; induction ops as [|o ops IH]; intros h H; [assumption|].
  cbn. apply IH, ts_step_inv, H.
Qed.

Lemma ts_run_shown ops h t : HInv h -> valid h t -> shown (ts_run ops h) t = shown h t.
Proof.
  revert h; induction ops as [|o ops IH]; intros h H Hv; [reflexivity|].
  cbn. rewrite IH; [apply ts_step_shown|apply ts_step_inv|apply ts_step_valid]; assumption.
Qed.

Lemma ts_string_spec h t :
  HInv h -> valid h t ->
  snd (ts_string h t) = match t with None => [] | Some _ => write_tags (map_to_list (shown h t)) end.
Proof.
  intros H Hv. destruct t as [i|]; [|reflexivity]. cbn in Hv |- *.
  unfold shown. cbn [ts_map].
  destruct (h_sets h !! i) as [o|] eqn:E; [|apply lookup_ge_None in E; lia].
  destruct (beqb (ts_str o) []) eqn:Eb; [reflexivity|]. cbn.
  destruct H as [_ Hs]. destruct (Hs i o E) as [_ [Hn|Hn]]; [|assumption].
  rewrite Hn in Eb. discriminate.
Qed.

Lemma observe_stable ops1 ops2 t :
  valid (ts_run ops1 heap_init) t ->
  observe (ts_run (ops1 ++ ops2) heap_init) t = observe (ts_run ops1 heap_init) t.
Proof.
  intros Hv. unfold ts_run at 1. rewrite fold_left_app.
  change (fold_left ts_step ops2 (fold_left ts_step ops1 heap_init))
    with (ts_run ops2 (ts_run ops1 heap_init)).
  set (h := ts_run ops1 heap_init) in *.
  assert (Hi : HInv h) by (apply ts_run_inv, HInv_init).
  pose proof (ts_run_shown ops2 h t Hi Hv) as Hs.
  assert (Hv2 : valid (ts_run ops2 h) t).
  { clear -Hv. revert Hv. generalize h as h0. clear h.
    induction ops2 as [|o ops IH]; intros h0 Hv; [assumption|].
    cbn. apply IH, ts_step_valid, Hv. }
  unfold observe. rewrite !ts_string_spec; [|assumption..|apply ts_run_inv; assumption|assumption].
  unfold ts_get, ts_len, ts_all_ref, shown in *. rewrite Hs. reflexivity.
Qed.

Lemma set_tags_spec h t tags key :
  shown (fst (ts_set_tags h t tags)) (Some (snd (ts_set_tags h t tags))) !! key =
  match last_match (fun kv => if decide (fst kv = key) then Some (snd kv) else None) tags with
  | Some v => Some v
  | None => shown h t !! key
  end.
Proof.
  unfold ts_set_tags. rewrite alloc_set_new.
  apply (with_tags_lookup (SeriesKey [] (shown h t)) tags key).
Qed.

Lemma set_all_spec h t kvs key :
  shown (fst (ts_set_all h t kvs)) (Some (snd (ts_set_all h t kvs))) !! key =
  match kvs !! key with Some v => Some v | None => shown h t !! key end.
Proof.
  unfold ts_set_all. rewrite alloc_set_new. unfold shown. rewrite lookup_union.
  destruct (kvs !! key), (map_contents h (ts_map h t) !! key); reflexivity.
Qed.

Lemma set_spec h t k v key :
  shown (fst (ts_set h t k v)) (Some (snd (ts_set h t k v))) !! key =
  if decide (k = key) then Some v else shown h t !! key.
Proof.
  unfold ts_set. rewrite set_all_spec.
  destruct (decide (k = key)) as [<-|Hne].
  - rewrite lookup_singleton. reflexivity.
  - rewrite lookup_singleton_ne by assumption. reflexivity.
Qed.

Lemma observe_coherent ops t :
  valid (ts_run ops heap_init) t ->
  let h := ts_run ops heap_init in
  let m := map_contents h (ts_all_ref h t) in
  ts_len h t = size m /\
  (forall key, ts_get h t key = default [] (m !! key)) /\
  snd (ts_string h t) = match t with None => [] | Some _ => write_tags (map_to_list m) end.
Proof.
  intros Hv h m. split; [reflexivity|]. split; [reflexivity|].
  apply ts_string_spec; [apply ts_run_inv, HInv_init|assumption].
Qed.

Lemma string_canonical ops1 t1 ops2 t2 :
  let h1 := ts_run ops1 heap_init in
  let h2 := ts_run ops2 heap_init in
  valid h1 t1 -> valid h2 t2 ->
  map_contents h1 (ts_all_ref h1 t1) = map_contents h2 (ts_all_ref h2 t2) ->
  snd (ts_string h1 t1) = snd (ts_string h2 t2).
Proof.
  intros h1 h2 V1 V2 E.
  assert (S : forall ops t, valid (ts_run ops heap_init) t ->
    snd (ts_string (ts_run ops heap_init) t) = write_tags (map_to_list (map_contents (ts_run ops heap_init) (ts_all_ref (ts_run ops heap_init) t)))).
  { intros ops t V. rewrite ts_string_spec; [|apply ts_run_inv, HInv_init|exact V]. destruct t; reflexivity. }
  unfold h1, h2 in *. rewrite (S ops1 t1 V1), (S ops2 t2 V2), E. reflexivity.
Qed.
