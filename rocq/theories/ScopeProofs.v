From Verif Require Import Base BaseProofs SeriesModel SeriesSpec SeriesProofs Conc ScopeModel ScopeSpec.

Local Arguments B : simpl never.

(** ** Table names *)
Fixpoint split_comma (s : bytes) : list bytes :=
  match s with
  | [] => [[]]
  | a :: s' =>
      if bool_decide (a = chComma) then [] :: split_comma s'
      else match split_comma s' with [] => [[a]] | p :: ps => (a :: p) :: ps end
  end.
Lemma split_comma_nonnil s : split_comma s <> [].
Proof. destruct s; cbn; [discriminate|]. destruct (bool_decide _); [discriminate|]. destruct (split_comma s); discriminate. Qed.
Lemma split_comma_pre p s :
  no_comma p -> split_comma (p ++ s) = match split_comma s with [] => [p] | q :: qs => (p ++ q) :: qs end.
Proof.
  induction p as [|a p IH]; intros H; cbn.
  - destruct (split_comma s) eqn:E; [exfalso; eapply split_comma_nonnil; eauto|reflexivity].
  - rewrite bool_decide_eq_false_2 by (intros ->; apply H; left; reflexivity).
    rewrite IH by (intros Hin; apply H; right; assumption).
    destruct (split_comma s); reflexivity.
Qed.
Lemma split_comma_plain p : no_comma p -> split_comma p = [p].
Proof. intros H. rewrite <- (app_nil_r p) at 1. rewrite split_comma_pre by assumption. cbn. rewrite app_nil_r. reflexivity. Qed.
Lemma split_comma_cons s : split_comma (chComma :: s) = [] :: split_comma s.
Proof. reflexivity. Qed.

Definition tag_text (t : bytes * bytes) : bytes := fst t ++ [chEq] ++ snd t.
Definition clean_tags (tags : list (bytes * bytes)) : Prop :=
  forall key val, In (key, val) tags -> no_comma key /\ ~ In chEq key /\ no_comma val.

Lemma no_comma_app p q : no_comma p -> no_comma q -> no_comma (p ++ q).
Proof. unfold no_comma. intros Hp Hq H. apply in_app_or in H. tauto. Qed.
Lemma no_comma_eq : no_comma [chEq].
Proof. intros [H|[]]. discriminate. Qed.

Lemma split_source p tags :
  no_comma p -> clean_tags tags ->
  split_comma (p ++ write_source_tags tags) = p :: map tag_text tags.
Proof.
  revert p. induction tags as [|[k v] tags IH]; intros p Hp Ht.
  - cbn. rewrite app_nil_r. apply split_comma_plain, Hp.
  - rewrite split_comma_pre by assumption.
    destruct (Ht k v) as (Hk & He & Hv); [left; reflexivity|].
    replace (write_source_tags ((k, v) :: tags)) with (chComma :: (tag_text (k, v) ++ write_source_tags tags)).
    2:{ unfold write_source_tags, tag_text. cbn. rewrite <- !app_assoc. reflexivity. }
    rewrite split_comma_cons, IH.
    + rewrite app_nil_r. reflexivity.
    + unfold tag_text. cbn. apply no_comma_app; [assumption|]. apply (no_comma_app [chEq]); [apply no_comma_eq|assumption].
    + intros k' v' Hin. apply Ht. right. assumption.
Qed.

Lemma split_at_eq k v k' v' :
  ~ In chEq k -> ~ In chEq k' -> k ++ chEq :: v = k' ++ chEq :: v' -> k = k' /\ v = v'.
Proof.
  revert k'. induction k as [|a k IH]; intros [|a' k'] H H' E; cbn in E.
  - apply cons_inv in E as [_ ->]. auto.
  - exfalso. apply cons_inv in E as [<- _]. apply H'. left. reflexivity.
  - exfalso. apply cons_inv in E as [-> _]. apply H. left. reflexivity.
  - apply cons_inv in E as [-> E]. destruct (IH k') as [-> ->]; auto; intros Hin; [apply H|apply H']; right; assumption.
Qed.

Lemma tag_texts_inj t1 t2 :
  clean_tags t1 -> clean_tags t2 -> map tag_text t1 = map tag_text t2 -> t1 = t2.
Proof.
  revert t2. induction t1 as [|[k v] t1 IH]; intros [|[k' v'] t2] H1 H2 E; try discriminate; [reflexivity|].
  cbn [map] in E. pose proof (f_equal (@hd bytes []) E) as E1. pose proof (f_equal (@List.tl bytes) E) as E2. cbn in E1, E2.
  destruct (H1 k v) as (_ & He & _); [left; reflexivity|]. destruct (H2 k' v') as (_ & He' & _); [left; reflexivity|].
  destruct (split_at_eq _ _ _ _ He He' E1) as [-> ->]. f_equal. apply IH; [..|assumption].
  - intros a b Hin. apply H1. right. assumption.
  - intros a b Hin. apply H2. right. assumption.
Qed.

Lemma no_comma_ns k : no_comma (namespace_of k).
Proof. destruct k; cbn; intros H; repeat (destruct H as [H|H]; [discriminate|]); assumption. Qed.

Definition is_func (k : kind) : bool := match k with KFunc => true | _ => false end.

Lemma table_name_inj k name tags k' name' tags' :
  clean k name tags -> clean k' name' tags' ->
  table_name k name tags = table_name k' name' tags' ->
  (k = KFunc <-> k' = KFunc) /\ name = name' /\ tags = tags'.
Proof.
  intros (Hn & Ht & Hp) (Hn' & Ht' & Hp') E. unfold table_name, source_name in E.
  rewrite !app_assoc in E.
  assert (E' := f_equal split_comma E).
  rewrite !split_source in E' by (try apply no_comma_app; try apply no_comma_ns; assumption).
  pose proof (f_equal (@hd bytes []) E') as E1. pose proof (f_equal (@List.tl bytes) E') as E2. cbn [hd List.tl] in E1, E2.
  apply tag_texts_inj in E2; [|assumption..].
  destruct (decide (k = KFunc)) as [->|Hk], (decide (k' = KFunc)) as [->|Hk'].
  - apply app_inv_head in E1. tauto.
  - exfalso. apply (Hp' Hk' name). symmetry. destruct k'; try congruence; exact E1.
  - exfalso. apply (Hp Hk name'). destruct k; try congruence; exact E1.
  - split; [tauto|]. split; [|assumption]. destruct k, k'; try congruence; exact E1.
Qed.

(** ** The invariant *)
Definition thread_ok (s : scope) (t : thread) : Prop :=
  match th_call t, th_pc t with
  | CLookup k name tags, PDone (RObj (Ok o)) =>
      sc_sources s !! table_name k name tags = Some o /\ exists id key, o = Src id k key
  | CLookup k name tags, PDone (RObj (Panic _)) =>
      match sc_sources s !! table_name k name tags with
      | Some (Src _ k' _) => k' <> k
      | Some (Gauge _ _) => True
      | None => False
      end
  | CLookup _ _ _, PDone _ => False
  | CGauge name cb, PDone (RUnit (Ok _)) => exists cb', sc_sources s !! name = Some (Gauge name cb')
  | CGauge name cb, PDone (RUnit (Panic _)) => exists id k key, sc_sources s !! name = Some (Src id k key)
  | CGauge _ _, PDone _ => False
  | _, _ => True
  end.

Record sc_inv (s : scope) (ts : list thread) : Prop := {
  inv_nodup : NoDup (sc_built s);
  inv_built : forall n, In n (sc_built s) <-> exists id k key, sc_sources s !! n = Some (Src id k key);
  inv_fresh : forall n id k key, sc_sources s !! n = Some (Src id k key) -> id < sc_next s;
  inv_ids : forall n n' id k key k' key', sc_sources s !! n = Some (Src id k key) ->
              sc_sources s !! n' = Some (Src id k' key') -> n = n';
  inv_gauge : forall n m cb, sc_sources s !! n = Some (Gauge m cb) -> m = n;
  inv_origin : forall n id k key, sc_sources s !! n = Some (Src id k key) ->
     exists i name tags p, ts !! i = Some (Thr (CLookup k name tags) p) /\
       n = table_name k name tags /\ key = constructor_key k name tags;
  inv_threads : forall i t, ts !! i = Some t -> thread_ok s t
}.

(** How a step may change the table. *)
Definition keeps (s s' : scope) : Prop :=
  (forall n id k key, sc_sources s !! n = Some (Src id k key) -> sc_sources s' !! n = Some (Src id k key)) /\
  (forall n m cb, sc_sources s !! n = Some (Gauge m cb) -> exists cb', sc_sources s' !! n = Some (Gauge n cb')).

Lemma keeps_refl s : (forall n m cb, sc_sources s !! n = Some (Gauge m cb) -> m = n) -> keeps s s.
Proof. intros Hg. split; [auto|]. intros n m cb H. pose proof (Hg _ _ _ H); subst; eauto. Qed.

Lemma thread_ok_keeps s s' t : keeps s s' -> thread_ok s t -> thread_ok s' t.
Proof.
  intros [K1 K2]. unfold thread_ok. destruct t as [[k name tags|name cb|src|ord] p]; cbn; auto.
  - destruct p as [| | |[[o|msg]|r|v]]; auto.
    + intros [H (id & key & ->)]. eauto.
    + destruct (sc_sources s !! _) as [[id k' key|m cb]|] eqn:E; [|auto|tauto].
      * rewrite (K1 _ _ _ _ E). auto.
      * destruct (K2 _ _ _ E) as [cb' ->]. auto.
  - destruct p as [| | |[r|[u|msg]|v]]; auto.
    + intros [cb' H]. exact (K2 _ _ _ H).
    + intros (id & k & key & H). eauto.
Qed.

Lemma sc_step_keeps s t :
  (forall n m cb, sc_sources s !! n = Some (Gauge m cb) -> m = n) ->
  forall i, keeps s (fst (sc_step i s t)).
Proof.
  intros Hg i. unfold sc_step.
  destruct t as [[k name tags|name cb|src|ord] p]; cbn [th_call th_pc];
    try (destruct p; cbn; apply keeps_refl; assumption).
  - destruct p; cbn; try (apply keeps_refl; assumption).
    + destruct (sc_sources s !! _) eqn:E; cbn; apply keeps_refl; assumption.
    + destruct (sc_sources s !! table_name k name tags) eqn:E; cbn; [apply keeps_refl; assumption|].
      split; cbn.
      * intros n id k' key H. rewrite lookup_insert_ne by congruence. assumption.
      * intros n m cb H. rewrite lookup_insert_ne by congruence. pose proof (Hg _ _ _ H); subst; eauto.
  - destruct p; cbn; try (apply keeps_refl; assumption).
    assert (forall n id k key, sc_sources s !! n = Some (Src id k key) -> n <> name ->
              (<[name := Gauge name cb]> (sc_sources s)) !! n = Some (Src id k key)) as Hne.
    { intros n id k key H Hn. rewrite lookup_insert_ne by congruence. assumption. }
    assert (Hins : (forall id k key, sc_sources s !! name <> Some (Src id k key)) ->
              keeps s (Scope (<[name := Gauge name cb]> (sc_sources s)) (sc_chains s) (sc_next s) (sc_built s))).
    { intros Hno. split; cbn.
      - intros n id k key H. apply Hne; [assumption|]. intros ->. eapply Hno; eauto.
      - intros n m cb' H. destruct (decide (n = name)) as [->|Hn].
        + rewrite lookup_insert. eauto.
        + rewrite lookup_insert_ne by congruence. pose proof (Hg _ _ _ H). subst. eauto. }
    destruct (sc_sources s !! name) as [[id k key|m cb0]|] eqn:E; cbn; [apply keeps_refl; assumption|..];
      apply Hins; congruence.
  - destruct p; exact (keeps_refl s Hg).
Qed.

Lemma call_kept i s t : th_call (snd (sc_step i s t)) = th_call t.
Proof.
  unfold sc_step. destruct t as [[k name tags|name cb|src|ord] p]; destruct p; cbn [th_call th_pc]; try reflexivity.
  - destruct (sc_sources s !! _); reflexivity.
  - destruct (sc_sources s !! _); reflexivity.
  - destruct (sc_sources s !! _) as [[]|]; reflexivity.
Qed.

Lemma assert_kind_ok s k name tags o :
  sc_sources s !! table_name k name tags = Some o ->
  thread_ok s (Thr (CLookup k name tags) (PDone (RObj (assert_kind k name o)))).
Proof.
  intros E. unfold assert_kind. destruct o as [id k' key|m cb]; [|cbn; rewrite E; exact I].
  case_bool_decide as Hk; cbn; rewrite E; [subst; eauto|assumption].
Qed.

Lemma thread_new_ok s t i :
  (forall n m cb, sc_sources s !! n = Some (Gauge m cb) -> m = n) ->
  thread_ok s t -> thread_ok (fst (sc_step i s t)) (snd (sc_step i s t)).
Proof.
  intros Hg. unfold sc_step. destruct t as [[k name tags|name cb|src|ord] p]; destruct p; cbn [th_call th_pc]; try (cbn; tauto).
  - intros _. destruct (sc_sources s !! _) eqn:E; [|exact I]. apply assert_kind_ok, E.
  - intros _. destruct (sc_sources s !! _) eqn:E; [apply assert_kind_ok, E|]. apply assert_kind_ok. cbn. apply lookup_insert.
  - intros _. destruct (sc_sources s !! name) as [[id k key|m cb0]|] eqn:E; cbn; [eauto| |];
      rewrite lookup_insert; eauto.
Qed.

Lemma origin_insert (ts : list thread) i0 t t' :
  ts !! i0 = Some t -> th_call t' = th_call t ->
  forall j c p, ts !! j = Some (Thr c p) -> exists p', (<[i0 := t']> ts) !! j = Some (Thr c p').
Proof.
  intros H0 Hc j c p Hj. destruct (decide (i0 = j)) as [->|Hn].
  - rewrite list_lookup_insert by (eapply lookup_lt_Some; eauto).
    rewrite H0 in Hj. injection Hj as ->. destruct t' as [c' p']. cbn in Hc. subst. eauto.
  - rewrite list_lookup_insert_ne by assumption. eauto.
Qed.

Lemma inv_keep_threads s s' ts ts' :
  sc_inv s ts ->
  sc_sources s' = sc_sources s -> sc_next s' = sc_next s -> sc_built s' = sc_built s ->
  (forall j t0, ts' !! j = Some t0 -> thread_ok s' t0) ->
  (forall j c p, ts !! j = Some (Thr c p) -> exists p', ts' !! j = Some (Thr c p')) ->
  sc_inv s' ts'.
Proof.
  intros [H1 H2 H3 H4 Hg H5 H6] E1 E2 E3 Hth Hor. split; rewrite ?E1, ?E2, ?E3; auto.
  intros n id k key H. destruct (H5 _ _ _ _ H) as (j & name & tags & p & Hj & -> & ->).
  destruct (Hor _ _ _ Hj) as [p' Hp']. eauto 8.
Qed.

Lemma sc_inv_step s ts i t :
  sc_inv s ts -> ts !! i = Some t -> sc_inv (fst (sc_step i s t)) (<[i := snd (sc_step i s t)]> ts).
Proof.
  intros Hinv Ht. pose proof Hinv as [H1 H2 H3 H4 Hg H5 H6].
  pose proof (sc_step_keeps s t Hg i) as HK.
  assert (Hth : forall j t0, (<[i := snd (sc_step i s t)]> ts) !! j = Some t0 -> thread_ok (fst (sc_step i s t)) t0).
  { intros j t0 Hj. destruct (decide (i = j)) as [<-|Hn].
    - rewrite list_lookup_insert in Hj by (eapply lookup_lt_Some; eauto). injection Hj as <-.
      apply thread_new_ok; eauto.
    - rewrite list_lookup_insert_ne in Hj by assumption. eapply thread_ok_keeps; eauto. }
  assert (Hor : forall j c p, ts !! j = Some (Thr c p) -> exists p', (<[i := snd (sc_step i s t)]> ts) !! j = Some (Thr c p')).
  { eapply origin_insert; [exact Ht|apply call_kept]. }
  revert Hth Hor. generalize (<[i := snd (sc_step i s t)]> ts) as ts'. intros ts' Hth Hor. clear HK.
  unfold sc_step in Hth |- *.
  destruct t as [[k name tags|name cb|src|ord] p]; cbn [th_call th_pc] in *;
    try (destruct p; eapply inv_keep_threads; eauto; fail).
  - destruct p; try (eapply inv_keep_threads; eauto; fail).
    + destruct (sc_sources s !! _) eqn:E; eapply inv_keep_threads; eauto.
    + destruct (sc_sources s !! table_name k name tags) eqn:E; [eapply inv_keep_threads; eauto|].
      cbn [fst snd] in *. set (n0 := table_name k name tags) in *.
      assert (Hnb : ~ In n0 (sc_built s)).
      { intros Hin. apply H2 in Hin as (id & k' & key & Hs). congruence. }
      split; cbn.
      * apply NoDup_app. split; [assumption|]. split; [|apply NoDup_singleton].
        intros x Hx Hx'. apply elem_of_list_singleton in Hx'. subst. apply Hnb, elem_of_list_In, Hx.
      * intros n. rewrite in_app_iff, H2. split.
        -- intros [(id & k' & key & Hs)|[<-|[]]]; [|rewrite lookup_insert; eauto].
           rewrite lookup_insert_ne by congruence. eauto.
        -- intros (id & k' & key & Hs). destruct (decide (n0 = n)) as [<-|Hn]; [right; left; reflexivity|].
           rewrite lookup_insert_ne in Hs by assumption. eauto.
      * intros n id k' key Hs. destruct (decide (n0 = n)) as [<-|Hn].
        -- rewrite lookup_insert in Hs. injection Hs as <- _ _. lia.
        -- rewrite lookup_insert_ne in Hs by assumption. apply H3 in Hs. lia.
      * intros n n' id k1 key1 k2 key2 Hs Hs'.
        destruct (decide (n0 = n)) as [<-|Hn], (decide (n0 = n')) as [<-|Hn']; [reflexivity|..].
        -- rewrite lookup_insert in Hs. rewrite lookup_insert_ne in Hs' by assumption.
           injection Hs as <- _ _. apply H3 in Hs'. lia.
        -- rewrite lookup_insert in Hs'. rewrite lookup_insert_ne in Hs by assumption.
           injection Hs' as <- _ _. apply H3 in Hs. lia.
        -- rewrite lookup_insert_ne in Hs, Hs' by assumption. eauto.
      * intros n m cb Hs. destruct (decide (n0 = n)) as [<-|Hn].
        -- rewrite lookup_insert in Hs. discriminate.
        -- rewrite lookup_insert_ne in Hs by assumption. eauto.
      * intros n id k' key Hs. destruct (decide (n0 = n)) as [<-|Hn].
        -- rewrite lookup_insert in Hs. injection Hs as _ <- <-.
           destruct (Hor _ _ _ Ht) as [p' Hp']. eauto 8.
        -- rewrite lookup_insert_ne in Hs by assumption.
           destruct (H5 _ _ _ _ Hs) as (j & name' & tags' & p & Hj & -> & ->).
           destruct (Hor _ _ _ Hj) as [p' Hp']. eauto 8.
      * exact Hth.
  - destruct p; try (eapply inv_keep_threads; eauto; fail).
    assert (Hins : (forall id k key, sc_sources s !! name <> Some (Src id k key)) ->
      (forall j t0, ts' !! j = Some t0 -> thread_ok (Scope (<[name := Gauge name cb]> (sc_sources s)) (sc_chains s) (sc_next s) (sc_built s)) t0) ->
      sc_inv (Scope (<[name := Gauge name cb]> (sc_sources s)) (sc_chains s) (sc_next s) (sc_built s)) ts').
    { intros Hno Hth'.
      assert (Hl : forall n id k key, (<[name := Gauge name cb]> (sc_sources s)) !! n = Some (Src id k key) <-> sc_sources s !! n = Some (Src id k key)).
      { intros n id k key. destruct (decide (name = n)) as [<-|Hn].
        - rewrite lookup_insert. split; [discriminate|]. intros Hs. exfalso. eapply Hno; eauto.
        - rewrite lookup_insert_ne by assumption. tauto. }
      split; cbn; auto.
      - intros n. rewrite H2. setoid_rewrite Hl. tauto.
      - intros n id k key Hs. apply Hl in Hs. eauto.
      - intros n n' id k key k' key' Hs Hs'. apply Hl in Hs, Hs'. eauto.
      - intros n m cb' Hs. destruct (decide (name = n)) as [<-|Hn].
        + rewrite lookup_insert in Hs. congruence.
        + rewrite lookup_insert_ne in Hs by assumption. eauto.
      - intros n id k key Hs. apply Hl in Hs.
        destruct (H5 _ _ _ _ Hs) as (j & name' & tags' & p & Hj & -> & ->).
        destruct (Hor _ _ _ Hj) as [p' Hp']. eauto 8. }
    destruct (sc_sources s !! name) as [[id k key|m cb0]|] eqn:E; cbn [fst snd] in *.
    + eapply inv_keep_threads; eauto.
    + apply Hins; [congruence|assumption].
    + apply Hins; [congruence|assumption].
Qed.

Lemma sc_inv_all sched : sc_inv (shared (sc_exec sched)) (threads (sc_exec sched)).
Proof.
  apply (exec_inv sc_start sc_step sc_inv new_scope).
  - split; cbn; try (intros; rewrite lookup_empty in *; discriminate).
    + constructor.
    + intros n. split; [tauto|]. intros (id & k & key & H). rewrite lookup_empty in H. discriminate.
    + intros i t H. discriminate.
  - intros s ts c [H1 H2 H3 H4 Hg H5 H6]. split; auto.
    + intros n id k key Hs. destruct (H5 _ _ _ _ Hs) as (j & name' & tags' & p & Hj & -> & ->).
      exists j, name', tags', p. split; [apply lookup_app_l_Some; assumption|auto].
    + intros i t Hi. apply lookup_app_Some in Hi as [Hi|[_ Hi]]; [eauto|].
      apply list_lookup_singleton_Some in Hi as [_ <-]. destruct c; exact I.
  - intros s ts i l H Hl. apply sc_inv_step; assumption.
Qed.

(** ** C04 *)
Lemma same_object sched i j k name tags o o' :
  returned sched i (CLookup k name tags) (RObj (Ok o)) ->
  returned sched j (CLookup k name tags) (RObj (Ok o')) -> o = o'.
Proof.
  intros Hi Hj. destruct (sc_inv_all sched) as [_ _ _ _ _ _ H6].
  apply H6 in Hi as [Hi _]. apply H6 in Hj as [Hj _]. congruence.
Qed.

Lemma constructors_once sched : NoDup (sc_built (shared (sc_exec sched))).
Proof. apply sc_inv_all. Qed.

Lemma exec_keeps sched1 sched2 : keeps (shared (sc_exec sched1)) (shared (sc_exec (sched1 ++ sched2))).
Proof.
  induction sched2 as [|a sched2 IH] using rev_ind.
  - rewrite app_nil_r. apply keeps_refl, sc_inv_all.
  - rewrite app_assoc. unfold sc_exec in *. rewrite exec_snoc.
    set (c := exec sc_start sc_step new_scope (sched1 ++ sched2)) in *.
    destruct a as [x|i]; cbn; [exact IH|].
    destruct (threads c !! i) as [l|] eqn:E; [|exact IH]. cbn.
    assert (K : keeps (shared c) (fst (sc_step i (shared c) l))).
    { apply sc_step_keeps. apply (sc_inv_all (sched1 ++ sched2)). }
    destruct IH as [A1 A2], K as [B1 B2]. split; [eauto|].
    intros n m cb H. destruct (A2 _ _ _ H) as [cb' H']. eauto.
Qed.

Lemma never_rebound sched1 sched2 n id k key :
  table sched1 !! n = Some (Src id k key) -> table (sched1 ++ sched2) !! n = Some (Src id k key).
Proof. apply (exec_keeps sched1 sched2). Qed.

Lemma right_kind sched i k name tags o :
  returned sched i (CLookup k name tags) (RObj (Ok o)) -> exists id key, o = Src id k key.
Proof. intros Hi. destruct (sc_inv_all sched) as [_ _ _ _ _ _ H6]. apply H6 in Hi as [_ Hi]. exact Hi. Qed.

Lemma panic_iff_taken sched i k name tags r :
  returned sched i (CLookup k name tags) r ->
  (exists o, r = RObj (Ok o) /\ table sched !! table_name k name tags = Some o) \/
  (exists msg o, r = RObj (Panic msg) /\ table sched !! table_name k name tags = Some o /\
     forall id key, o <> Src id k key).
Proof.
  intros Hi. destruct (sc_inv_all sched) as [_ _ _ _ _ _ H6]. apply H6 in Hi. unfold thread_ok in Hi. cbn in Hi.
  destruct r as [[o|msg]|u|v]; try tauto.
  - left. destruct Hi as [Hi _]. eauto.
  - right. unfold table. destruct (sc_sources _ !! _) as [o|]; [|tauto].
    exists msg, o. split; [reflexivity|]. split; [reflexivity|]. intros id key ->. congruence.
Qed.

Lemma threads_len_app sched1 sched2 i t :
  threads (sc_exec sched1) !! i = Some t ->
  exists t', threads (sc_exec (sched1 ++ sched2)) !! i = Some t' /\ th_call t' = th_call t.
Proof.
  intros H. induction sched2 as [|a sched2 IH] using rev_ind.
  - rewrite app_nil_r. eauto.
  - destruct IH as (t' & H' & Hc). rewrite app_assoc. unfold sc_exec in *. rewrite exec_snoc.
    set (c := exec sc_start sc_step new_scope (sched1 ++ sched2)) in *. destruct a as [x|j]; cbn.
    + exists t'. split; [apply lookup_app_l_Some; assumption|assumption].
    + destruct (threads c !! j) as [l|] eqn:E; [|eauto]. cbn. destruct (decide (j = i)) as [->|Hn].
      * rewrite list_lookup_insert by (eapply lookup_lt_Some; eauto). eexists. split; [reflexivity|].
        rewrite call_kept. congruence.
      * rewrite list_lookup_insert_ne by assumption. eauto.
Qed.

(** Lookups always terminate: two own steps suffice from any point. *)
Lemma lookup_step_done i s t k name tags p :
  t = Thr (CLookup k name tags) p -> p = PStart \/ p = PMissed \/ (exists r, p = PDone r) ->
  let t1 := snd (sc_step i s t) in
  forall s1, exists r, snd (sc_step i s1 t1) = Thr (CLookup k name tags) (PDone r).
Proof.
  intros -> Hp t1 s1. unfold t1, sc_step. cbn [th_call th_pc].
  destruct Hp as [->|[->|[r ->]]].
  - destruct (sc_sources s !! _); cbn; [eauto|]. destruct (sc_sources s1 !! _); cbn; eauto.
  - destruct (sc_sources s !! _); cbn; eauto.
  - cbn. eauto.
Qed.

(** ** C05, C57 *)
Lemma distinct_objects sched i j k name tags k' name' tags' o o' :
  returned sched i (CLookup k name tags) (RObj (Ok o)) ->
  returned sched j (CLookup k' name' tags') (RObj (Ok o')) ->
  clean k name tags -> clean k' name' tags' ->
  (o = o' <-> k = k' /\ name = name' /\ tags = tags').
Proof.
  intros Hi Hj Hc Hc'. destruct (sc_inv_all sched) as [_ _ _ H4 _ _ H6].
  pose proof (H6 _ _ Hi) as [E1 (id & key & ->)]. pose proof (H6 _ _ Hj) as [E2 (id' & key' & ->)].
  split.
  - intros E. injection E as -> -> ->.
    pose proof (H4 _ _ _ _ _ _ _ E1 E2) as En. apply table_name_inj in En; tauto.
  - intros (-> & -> & ->). congruence.
Qed.

Lemma object_key sched i k name tags o :
  returned sched i (CLookup k name tags) (RObj (Ok o)) ->
  (forall j k' name' tags' p, threads (sc_exec sched) !! j = Some (Thr (CLookup k' name' tags') p) -> clean k' name' tags') ->
  exists id, o = Src id k (constructor_key k name tags).
Proof.
  intros Hi Hall. destruct (sc_inv_all sched) as [_ _ _ _ _ H5 H6].
  pose proof (H6 _ _ Hi) as [E1 (id & key & ->)].
  destruct (H5 _ _ _ _ E1) as (j & name' & tags' & p & Hj & En & ->).
  exists id. f_equal. pose proof (Hall _ _ _ _ _ Hj) as Hc'. pose proof (Hall _ _ _ _ _ Hi) as Hc.
  destruct (table_name_inj _ _ _ _ _ _ Hc Hc' En) as (_ & -> & ->). reflexivity.
Qed.

(** ** Stats visits *)
Lemma occurrences_app {A} (p : A -> bool) l l' : occurrences p (l ++ l') = occurrences p l + occurrences p l'.
Proof. induction l as [|x l IH]; cbn; [reflexivity|]. rewrite IH. lia. Qed.
Lemma occurrences_perm {A} (p : A -> bool) l l' : Permutation l l' -> occurrences p l = occurrences p l'.
Proof. induction 1; cbn; lia. Qed.
Lemma occurrences_none {A} (p : A -> bool) l : (forall x, In x l -> p x = false) -> occurrences p l = 0.
Proof.
  induction l as [|x l IH]; intros H; [reflexivity|]. cbn. rewrite (H x) by (left; reflexivity).
  rewrite IH; [reflexivity|]. intros y Hy. apply H. right. assumption.
Qed.
Lemma occurrences_map {A B} (p : B -> bool) (f : A -> B) l :
  occurrences p (map f l) = occurrences (fun x => p (f x)) l.
Proof. induction l as [|x l IH]; cbn; [reflexivity|]. rewrite IH. reflexivity. Qed.

Lemma occurrences_map_once (p : obj -> bool) (m : gmap bytes obj) n o :
  m !! n = Some o -> p o = true -> (forall n' o', m !! n' = Some o' -> p o' = true -> n' = n) ->
  occurrences (fun e => p (snd e)) (map_to_list m) = 1.
Proof.
  intros Hn Hp Hu.
  assert (E : Permutation (map_to_list m) ((n, o) :: map_to_list (delete n m))).
  { rewrite <- (insert_delete m n o Hn) at 1. apply map_to_list_insert, lookup_delete. }
  rewrite (occurrences_perm _ _ _ E). cbn. rewrite Hp. rewrite occurrences_none; [reflexivity|].
  intros [n' o'] Hin. cbn. apply elem_of_list_In, elem_of_map_to_list in Hin.
  apply lookup_delete_Some in Hin as [Hne Hin].
  destruct (p o') eqn:E'; [|reflexivity]. exfalso. apply Hne. symmetry. eapply Hu; eauto.
Qed.

Lemma exec_lookup_done sched a i c r :
  returned sched i c (r) -> returned (sched ++ [a]) i c r.
Proof.
  unfold returned, sc_exec. intros H. rewrite exec_snoc. destruct a as [x|j]; cbn.
  - apply lookup_app_l_Some, H.
  - destruct (threads _ !! j) as [l|] eqn:E; [|assumption]. cbn. destruct (decide (j = i)) as [->|Hn].
    + rewrite E in H. injection H as ->. rewrite list_lookup_insert by (eapply lookup_lt_Some; eauto).
      unfold sc_step. cbn. destruct c; reflexivity.
    + rewrite list_lookup_insert_ne by assumption. assumption.
Qed.
Lemma returned_app sched sched' i c r : returned sched i c r -> returned (sched ++ sched') i c r.
Proof.
  intros H. induction sched' as [|a sched' IH] using rev_ind; [rewrite app_nil_r; assumption|].
  rewrite app_assoc. apply exec_lookup_done, IH.
Qed.

(** Where a Stats call took its two snapshots. *)
Lemma stats_snapshots sched1 ord sched2 :
  let i := length (threads (sc_exec sched1)) in
  exists p, threads (sc_exec (sched1 ++ Spawn (CStats ord) :: sched2)) !! i = Some (Thr (CStats ord) p) /\
  match p with
  | PStart => True
  | PNamed named => exists a b, sched1 ++ Spawn (CStats ord) :: sched2 = (sched1 ++ a) ++ b /\
      named = map snd (ord (map_to_list (table (sched1 ++ a))))
  | PDone (RVisited v) => exists a b c, sched1 ++ Spawn (CStats ord) :: sched2 = (sched1 ++ a) ++ b ++ c /\
      v = map inl (map snd (ord (map_to_list (table (sched1 ++ a))))) ++
          map inr (sc_chains (shared (sc_exec (sched1 ++ a ++ b))))
  | _ => False
  end.
Proof.
  intros i. induction sched2 as [|act sched2 IH] using rev_ind.
  - exists PStart. split; [|exact I]. unfold sc_exec. rewrite exec_snoc. cbn.
    fold (sc_exec sched1). unfold i. apply list_lookup_middle. reflexivity.
  - destruct IH as (p & Hp & HP).
    replace (sched1 ++ Spawn (CStats ord) :: (sched2 ++ [act]))
      with ((sched1 ++ Spawn (CStats ord) :: sched2) ++ [act]) by (rewrite <- app_assoc; reflexivity).
    set (h := sched1 ++ Spawn (CStats ord) :: sched2) in *.
    assert (Hex : exists x, h = sched1 ++ x) by (eexists; reflexivity). destruct Hex as [x Hx].
    assert (Hother : forall p', threads (sc_exec (h ++ [act])) !! i = Some (Thr (CStats ord) p') -> p' = p ->
      exists p, threads (sc_exec (h ++ [act])) !! i = Some (Thr (CStats ord) p) /\
      match p with
      | PStart => True
      | PNamed named => exists a b, h ++ [act] = (sched1 ++ a) ++ b /\
          named = map snd (ord (map_to_list (table (sched1 ++ a))))
      | PDone (RVisited v) => exists a b c, h ++ [act] = (sched1 ++ a) ++ b ++ c /\
          v = map inl (map snd (ord (map_to_list (table (sched1 ++ a))))) ++
              map inr (sc_chains (shared (sc_exec (sched1 ++ a ++ b))))
      | _ => False
      end).
    { intros p' H' ->. exists p. split; [assumption|]. destruct p as [| |named|[r|r|v]]; try exact HP.
      - destruct HP as (a & b & E & En). exists a, (b ++ [act]). rewrite E, <- !app_assoc. split; [reflexivity|assumption].
      - destruct HP as (a & b & c & E & En). exists a, b, (c ++ [act]). rewrite E, <- !app_assoc. split; [reflexivity|assumption]. }
    destruct act as [y|j].
    + apply (Hother p); [|reflexivity]. unfold sc_exec. rewrite exec_snoc. cbn. apply lookup_app_l_Some, Hp.
    + destruct (decide (j = i)) as [->|Hn].
      2:{ apply (Hother p); [|reflexivity]. unfold sc_exec. rewrite exec_snoc. cbn.
          destruct (threads _ !! j) as [l|] eqn:E; [|exact Hp]. cbn. rewrite list_lookup_insert_ne by assumption. exact Hp. }
      assert (Hrun : threads (sc_exec (h ++ [Run i])) !! i =
                     Some (snd (sc_step i (shared (sc_exec h)) (Thr (CStats ord) p)))).
      { unfold sc_exec in *. rewrite exec_snoc. cbn. rewrite Hp. cbn. apply list_lookup_insert.
        eapply lookup_lt_Some; eauto. }
      destruct p as [| |named|r]; try tauto.
      * exists (PNamed (map snd (ord (map_to_list (table h))))). split; [rewrite Hrun; reflexivity|].
        exists x, [Run i]. rewrite Hx. split; reflexivity.
      * exists (PDone (RVisited (map inl named ++ map inr (sc_chains (shared (sc_exec h)))))).
        split; [rewrite Hrun; reflexivity|]. destruct HP as (a & b & E & ->).
        exists a, b, [Run i]. rewrite E, <- !app_assoc. split; reflexivity.
      * apply (Hother (PDone r)); [rewrite Hrun; reflexivity|reflexivity].
Qed.

Lemma chains_prefix sched1 sched2 :
  exists more, sc_chains (shared (sc_exec (sched1 ++ sched2))) = sc_chains (shared (sc_exec sched1)) ++ more.
Proof.
  induction sched2 as [|a sched2 [more IH]] using rev_ind; [exists []; rewrite !app_nil_r; reflexivity|].
  rewrite app_assoc. unfold sc_exec in *. rewrite exec_snoc.
  set (c := exec sc_start sc_step new_scope (sched1 ++ sched2)) in *. destruct a as [x|j]; cbn; [eauto|].
  destruct (threads c !! j) as [l|]; [|eauto]. cbn. unfold sc_step.
  destruct l as [[k name tags|name cb|src|ord] p]; destruct p; cbn [th_call th_pc]; try (cbn; eauto).
  - destruct (sc_sources _ !! _); cbn; eauto.
  - destruct (sc_sources _ !! _); cbn; eauto.
  - destruct (sc_sources _ !! _) as [[]|]; cbn; eauto.
  - rewrite IH, <- app_assoc. eauto.
Qed.

Lemma table_once (sched : list (action call)) n id k key :
  table sched !! n = Some (Src id k key) ->
  forall ord (chains : list nat), any_order ord ->
  occurrences (is_source id) (map inl (map snd (ord (map_to_list (table sched)))) ++ map inr chains) = 1.
Proof.
  intros H ord chains Ho. destruct (sc_inv_all sched) as [_ _ _ H4 _ _ _].
  rewrite occurrences_app, !occurrences_map. rewrite (occurrences_none _ chains) by reflexivity.
  rewrite (occurrences_perm _ _ _ (Ho _)).
  rewrite (occurrences_map_once (fun o => is_source id (inl o)) (table sched) n (Src id k key)); [reflexivity|assumption|apply Nat.eqb_refl|].
  intros n' [id' k' key'|m cb] Hn' Hp; [|discriminate]. cbn in Hp. apply Nat.eqb_eq in Hp. subst id'.
  eapply H4; eassumption.
Qed.

Lemma gauge_once (sched : list (action call)) n cb :
  table sched !! n = Some (Gauge n cb) ->
  forall ord (chains : list nat), any_order ord ->
  occurrences (is_gauge_named n) (map inl (map snd (ord (map_to_list (table sched)))) ++ map inr chains) = 1.
Proof.
  intros H ord chains Ho. destruct (sc_inv_all sched) as [_ _ _ _ Hg _ _].
  rewrite occurrences_app, !occurrences_map. rewrite (occurrences_none _ chains) by reflexivity.
  rewrite (occurrences_perm _ _ _ (Ho _)).
  rewrite (occurrences_map_once (fun o => is_gauge_named n (inl o)) (table sched) n (Gauge n cb));
    [reflexivity|assumption|apply bool_decide_eq_true_2; reflexivity|].
  intros n' [id' k' key'|m cb'] Hn' Hp; [discriminate|]. cbn in Hp. apply bool_decide_eq_true in Hp. subst m.
  apply Hg in Hn'. congruence.
Qed.

Lemma visited_in_table (sched : list (action call)) ord o (chains : list nat) :
  any_order ord ->
  In (inl o) (map inl (map snd (ord (map_to_list (table sched)))) ++ map inr chains) ->
  exists n, table sched !! n = Some o.
Proof.
  intros Ho Hin. apply in_app_or in Hin as [Hin|Hin].
  - rewrite map_map in Hin. apply in_map_iff in Hin as ([n o'] & E & Hin). cbn in E. injection E as ->.
    exists n. apply elem_of_map_to_list, elem_of_list_In. eapply Permutation_in; [apply Ho|exact Hin].
  - apply in_map_iff in Hin as (? & E & _). discriminate.
Qed.

Lemma stats_visits sched1 ord sched2 v :
  any_order ord ->
  let sched := sched1 ++ Spawn (CStats ord) :: sched2 in
  returned sched (length (threads (sc_exec sched1))) (CStats ord) (RVisited v) ->
  (forall n id k key, table sched1 !! n = Some (Src id k key) -> occurrences (is_source id) v = 1) /\
  (forall n cb, table sched1 !! n = Some (Gauge n cb) -> occurrences (is_gauge_named n) v = 1) /\
  (forall id k key, In (inl (Src id k key)) v -> exists n, table sched !! n = Some (Src id k key)) /\
  (exists named later, v = map inl named ++ map inr (sc_chains (shared (sc_exec sched1)) ++ later)) /\
  (exists rest, visited_chains v ++ rest = sc_chains (shared (sc_exec sched))).
Proof.
  intros Ho sched Hr. destruct (stats_snapshots sched1 ord sched2) as (p & Hp & HP).
  unfold returned in Hr. fold sched in Hp. rewrite Hr in Hp. injection Hp as <-. 
  destruct HP as (a & b & c & E & ->). fold sched in E.
  split; [|split; [|split; [|split]]].
  - intros n id k key H. eapply table_once; [|assumption]. apply (never_rebound _ _ _ _ _ _ H).
  - intros n cb H. destruct (exec_keeps sched1 a) as [_ K]. destruct (K _ _ _ H) as [cb' H'].
    eapply gauge_once; [|assumption]. exact H'.
  - intros id k key Hin. apply visited_in_table in Hin as [n Hn]; [|assumption].
    exists n. rewrite E. apply never_rebound, Hn.
  - destruct (chains_prefix sched1 (a ++ b)) as [more Hm]. rewrite Hm. eauto.
  - destruct (chains_prefix (sched1 ++ a ++ b) c) as [more Hm]. exists more.
    replace (sched) with ((sched1 ++ a ++ b) ++ c) by (rewrite E, <- !app_assoc; reflexivity). rewrite Hm. f_equal.
    unfold visited_chains. rewrite omap_app.
    assert (E1 : forall l : list obj, omap (fun x : obj + nat => match x with inl _ => None | inr c => Some c end) (map inl l) = []).
    { induction l; [reflexivity|]. cbn. assumption. }
    assert (E2 : forall l : list nat, omap (fun x : obj + nat => match x with inl _ => None | inr c => Some c end) (map inr l) = l).
    { induction l as [|x l IHl]; [reflexivity|]. cbn. f_equal. assumption. }
    rewrite E1, E2. reflexivity.
Qed.

Lemma forward_tagged {V} scope_name (calls : list (list (stat V))) :
  Forall2 (scope_tagged scope_name) (concat calls) (scope_forward scope_name calls).
Proof.
  unfold scope_forward. induction calls as [|c calls IH]; cbn; [constructor|].
  apply Forall2_app; [|exact IH]. induction c as [|st c IHc]; cbn; constructor; [|exact IHc].
  unfold scope_tagged. cbn. split; [reflexivity|]. split; [reflexivity|]. split; [reflexivity|]. intros t. destruct (decide (t = B "scope")) as [->|Hn].
  - apply lookup_insert.
  - apply lookup_insert_ne. congruence.
Qed.

(** ** Gauges *)
Lemma gauge_step_panics sched i name cb id k key :
  threads (sc_exec sched) !! i = Some (Thr (CGauge name cb) PStart) ->
  table sched !! name = Some (Src id k key) ->
  (exists msg, returned (sched ++ [Run i]) i (CGauge name cb) (RUnit (Panic msg))) /\
  table (sched ++ [Run i]) = table sched.
Proof.
  intros Hi Ht. unfold returned, table in *. assert (E : sc_exec (sched ++ [Run i]) = _) by exact (exec_run _ _ _ _ _ _ Hi).
  fold (sc_exec sched) in E. rewrite E. clear E. revert Hi Ht. generalize (sc_exec sched) as c. intros [s ts] Hi Ht. cbn [shared threads] in *.
  unfold sc_step. cbn [th_call th_pc]. rewrite Ht. cbn [fst snd]. split; [|reflexivity]. eexists.
  apply list_lookup_insert. eapply lookup_lt_Some; eauto.
Qed.

Definition changes_gauge (name : bytes) (t : thread) : bool :=
  match t with Thr (CGauge n _) PStart => bool_decide (n = name) | _ => false end.

Lemma gauge_other_step s t i name cb :
  sc_sources s !! name = Some (Gauge name cb) -> changes_gauge name t = false ->
  sc_sources (fst (sc_step i s t)) !! name = Some (Gauge name cb).
Proof.
  intros H Hc. unfold sc_step. destruct t as [[k n tags|n cb'|src|ord] p]; destruct p; cbn [th_call th_pc]; try exact H.
  - destruct (sc_sources s !! table_name k n tags); exact H.
  - destruct (sc_sources s !! table_name k n tags) eqn:E; cbn; [exact H|].
    rewrite lookup_insert_ne by congruence. exact H.
  - cbn in Hc. apply bool_decide_eq_false in Hc.
    destruct (sc_sources s !! n) as [[]|]; cbn; [exact H|..]; rewrite lookup_insert_ne by congruence; exact H.
Qed.

Lemma gauge_latest sched1 i name cb sched2 :
  threads (sc_exec sched1) !! i = Some (Thr (CGauge name cb) PStart) ->
  returned (sched1 ++ [Run i]) i (CGauge name cb) (RUnit (Ok tt)) ->
  (forall j cb' r, returned ((sched1 ++ [Run i]) ++ sched2) j (CGauge name cb') r ->
                   returned (sched1 ++ [Run i]) j (CGauge name cb') r) ->
  table ((sched1 ++ [Run i]) ++ sched2) !! name = Some (Gauge name cb).
Proof.
  intros Hi Hr Hno.
  assert (H0 : table (sched1 ++ [Run i]) !! name = Some (Gauge name cb)).
  { unfold returned, table in *. unfold sc_exec in Hr |- *. rewrite (exec_run _ _ _ _ _ _ Hi) in Hr |- *.
    fold (sc_exec sched1) in Hr |- *. clear Hno. revert Hi Hr. generalize (sc_exec sched1) as c. intros [s ts] Hi Hr.
    cbn [shared threads] in *. rewrite list_lookup_insert in Hr by (eapply lookup_lt_Some; eauto).
    unfold sc_step in *. cbn [th_call th_pc] in *.
    destruct (sc_sources _ !! name) as [[]|]; cbn [fst snd sc_sources] in *; [discriminate|..];
      apply lookup_insert. }
  revert Hno. induction sched2 as [|a sched2 IH] using rev_ind; intros Hno; [rewrite app_nil_r; exact H0|].
  rewrite app_assoc in *. set (h := (sched1 ++ [Run i]) ++ sched2) in *.
  assert (IH' : table h !! name = Some (Gauge name cb)).
  { apply IH. intros j cb' r Hj. apply (Hno j cb' r). apply exec_lookup_done, Hj. }
  clear IH. destruct a as [x|j]; [unfold table, sc_exec in *; rewrite exec_snoc; exact IH'|].
  destruct (threads (sc_exec h) !! j) as [t|] eqn:E.
  2:{ unfold table, sc_exec in *. rewrite exec_snoc. cbn. rewrite E. exact IH'. }
  assert (Hstep : table (h ++ [Run j]) = sc_sources (fst (sc_step j (shared (sc_exec h)) t))).
  { unfold table, sc_exec in *. rewrite exec_snoc. cbn. rewrite E. reflexivity. }
  destruct (changes_gauge name t) eqn:Hc; [exfalso|rewrite Hstep; apply gauge_other_step; assumption].
  destruct t as [[k n tags|n cb'|src|ord] p]; try discriminate. destruct p; try discriminate.
  cbn in Hc. apply bool_decide_eq_true in Hc. subst n.
  assert (Hdone : returned (h ++ [Run j]) j (CGauge name cb') (RUnit (Ok tt))).
  { unfold returned, table in *. unfold sc_exec. rewrite (exec_run _ _ _ _ _ _ E). fold (sc_exec h).
    clear Hstep Hno. revert E IH'. generalize (sc_exec h) as c. intros [s ts] E IH'. cbn [shared threads] in *.
    rewrite list_lookup_insert by (eapply lookup_lt_Some; eauto). unfold sc_step. cbn [th_call th_pc]. rewrite IH'. reflexivity. }
  apply Hno in Hdone. apply (returned_app _ sched2) in Hdone. fold h in Hdone. unfold returned in Hdone. congruence.
Qed.

Lemma gauge_reported sched name cb {V} (cb_value : nat -> V) ord :
  table sched !! name = Some (Gauge name cb) -> any_order ord ->
  let i := length (threads (sc_exec sched)) in
  exists v, returned (sched ++ [Spawn (CStats ord); Run i; Run i]) i (CStats ord) (RVisited v) /\
    occurrences (is_gauge_named name) v = 1 /\
    forall o, In (inl o) v -> is_gauge_named name (inl o) = true ->
      gauge_stats cb_value o = [Stat (SeriesKey name ∅) (B "value") (cb_value cb)].
Proof.
  intros Ht Ho i. unfold returned.
  replace (sched ++ [Spawn (CStats ord); Run i; Run i])
    with (((sched ++ [Spawn (CStats ord)]) ++ [Run i]) ++ [Run i]) by (rewrite <- !app_assoc; reflexivity).
  set (v := map inl (map snd (ord (map_to_list (table sched)))) ++ map inr (sc_chains (shared (sc_exec sched)))).
  exists v. split; [|split].
  - assert (E1 : sc_exec (sched ++ [Spawn (CStats ord)]) = _) by exact (exec_spawn _ _ _ _ _).
    fold (sc_exec sched) in E1.
    assert (L1 : threads (sc_exec (sched ++ [Spawn (CStats ord)])) !! i = Some (Thr (CStats ord) PStart)).
    { rewrite E1. apply list_lookup_middle. reflexivity. }
    assert (E2 : sc_exec ((sched ++ [Spawn (CStats ord)]) ++ [Run i]) = _) by exact (exec_run _ _ _ _ _ _ L1).
    fold (sc_exec (sched ++ [Spawn (CStats ord)])) in E2.
    rewrite E1 in E2. cbn [shared threads sc_step th_call th_pc fst snd sc_start] in E2.
    assert (L2 : threads (sc_exec ((sched ++ [Spawn (CStats ord)]) ++ [Run i])) !! i =
                 Some (Thr (CStats ord) (PNamed (map snd (ord (map_to_list (sc_sources (shared (sc_exec sched))))))))).
    { rewrite E2. apply list_lookup_insert. rewrite app_length. cbn. unfold i. lia. }
    assert (E3 : sc_exec (((sched ++ [Spawn (CStats ord)]) ++ [Run i]) ++ [Run i]) = _) by exact (exec_run _ _ _ _ _ _ L2).
    rewrite E3. cbn [threads]. rewrite list_lookup_insert by (eapply lookup_lt_Some; exact L2).
    fold (sc_exec ((sched ++ [Spawn (CStats ord)]) ++ [Run i])). rewrite E2. reflexivity.
  - apply (gauge_once sched name cb Ht ord _ Ho).
  - intros o Hin Hg. apply visited_in_table in Hin as [n Hn]; [|assumption].
    destruct o as [|m cb']; [discriminate|]. cbn in Hg. apply bool_decide_eq_true in Hg. subst m.
    destruct (sc_inv_all sched) as [_ _ _ _ Hgn _ _]. pose proof (Hgn _ _ _ Hn). subst n.
    rewrite Ht in Hn. injection Hn as <-. reflexivity.
Qed.

(** ** Funcs *)
Lemma funcs_exact sched ord range :
  any_order ord -> Permutation range (map_to_list (table sched)) ->
  NoDup (scope_funcs ord range) /\
  forall id, In id (scope_funcs ord range) <-> exists n key, table sched !! n = Some (Src id KFunc key).
Proof.
  intros Ho Hr. unfold scope_funcs. split.
  - rewrite (Ho _). apply NoDup_remove_dups.
  - intros id. rewrite <- elem_of_list_In. rewrite (Ho _). rewrite elem_of_remove_dups, elem_of_list_omap. split.
    + intros ([n o] & Hin & E). rewrite Hr in Hin. apply elem_of_map_to_list in Hin.
      destruct o as [id' [] key|]; cbn in E; try discriminate. injection E as ->. eauto.
    + intros (n & key & H). exists (n, Src id KFunc key). split; [|reflexivity].
      rewrite Hr. apply elem_of_map_to_list, H.
Qed.

(** ** Function keys *)
Lemma last_tag_match t tags :
  last_match (fun p : bytes * bytes => if decide (fst p = t) then Some (snd p) else None) tags = last_tag t tags.
Proof. induction tags as [|[k v] tags IH]; cbn; [reflexivity|]. rewrite IH. reflexivity. Qed.
Lemma last_tag_none t tags : (forall val, ~ In (t, val) tags) -> last_tag t tags = None.
Proof.
  induction tags as [|[k v] tags IH]; intros H; [reflexivity|]. cbn.
  rewrite IH by (intros val Hin; apply (H val); right; assumption).
  destruct (decide (k = t)) as [->|]; [|reflexivity]. exfalso. apply (H v). left. reflexivity.
Qed.

Lemma func_key_tags name tags t :
  sk_tags (constructor_key KFunc name tags) !! t =
  match last_tag t tags with
  | Some v => Some v
  | None => if decide (t = B "name") then Some name else None
  end.
Proof.
  unfold constructor_key. rewrite with_tags_lookup, last_tag_match. destruct (last_tag t tags); [reflexivity|].
  cbn. destruct (decide (t = B "name")) as [->|Hn]; [apply lookup_insert|].
  rewrite lookup_insert_ne by congruence. apply lookup_empty.
Qed.

Lemma func_names name tags scope_name :
  (forall val, ~ In (B "name", val) tags) ->
  func_short_name (constructor_key KFunc name tags) = name /\
  func_full_name scope_name (constructor_key KFunc name tags) = scope_name ++ B "." ++ name.
Proof.
  intros H. assert (E : func_short_name (constructor_key KFunc name tags) = name).
  { unfold func_short_name. rewrite func_key_tags. rewrite last_tag_none by assumption. reflexivity. }
  split; [exact E|]. unfold func_full_name. rewrite E. reflexivity.
Qed.

Lemma lookup_terminates sched i k name tags p :
  threads (sc_exec sched) !! i = Some (Thr (CLookup k name tags) p) ->
  forall mid, (forall t, threads (sc_exec (sched ++ [Run i] ++ mid)) !! i = Some t ->
                         threads (sc_exec (sched ++ [Run i])) !! i = Some t) ->
  exists r, returned (sched ++ [Run i] ++ mid ++ [Run i]) i (CLookup k name tags) r.
Proof.
  intros H mid Hmid.
  assert (Hp : p = PStart \/ p = PMissed \/ exists r, p = PDone r).
  { destruct p as [| |named|r]; eauto. exfalso.
    assert (Hn : forall h j k' n' t' nm, threads (sc_exec h) !! j <> Some (Thr (CLookup k' n' t') (PNamed nm))).
    { clear. intros h. refine (exec_inv sc_start sc_step (fun s ts => forall j k' n' t' nm, ts !! j <> Some (Thr (CLookup k' n' t') (PNamed nm))) new_scope _ _ _ h).
      - intros; discriminate.
      - intros s ts c IH j k' n' t' nm Hj. apply lookup_app_Some in Hj as [Hj|[_ Hj]]; [eapply IH; eauto|].
        apply list_lookup_singleton_Some in Hj as [_ E]. discriminate.
      - intros s ts j0 l IH Hl j k' n' t' nm Hj. destruct (decide (j0 = j)) as [->|Hne].
        + rewrite list_lookup_insert in Hj by (eapply lookup_lt_Some; eauto).
          destruct l as [c q]. assert (Hc := call_kept j s (Thr c q)). injection Hj as Hj. rewrite Hj in Hc. cbn in Hc. subst c.
          unfold sc_step in Hj. cbn [th_call th_pc] in Hj. destruct q; cbn in Hj.
          * destruct (sc_sources s !! _); cbn in Hj; discriminate.
          * destruct (sc_sources s !! _); cbn in Hj; discriminate.
          * injection Hj as ->. eapply IH; eauto.
          * discriminate.
        + rewrite list_lookup_insert_ne in Hj by assumption. eapply IH; eauto. }
    eapply Hn; eauto. }
  assert (E1 : sc_exec (sched ++ [Run i]) = _) by exact (exec_run _ _ _ _ _ _ H).
  assert (L1 : threads (sc_exec (sched ++ [Run i])) !! i = Some (snd (sc_step i (shared (sc_exec sched)) (Thr (CLookup k name tags) p)))).
  { rewrite E1. apply list_lookup_insert. eapply lookup_lt_Some; eauto. }
  destruct (threads_len_app (sched ++ [Run i]) mid _ _ L1) as (t' & Ht' & _).
  rewrite <- app_assoc in Ht'. pose proof (Hmid _ Ht') as E. rewrite L1 in E. injection E as <-.
  assert (E2 : sc_exec ((sched ++ [Run i] ++ mid) ++ [Run i]) = _) by exact (exec_run _ _ _ _ _ _ Ht').
  destruct (lookup_step_done i (shared (sc_exec sched)) _ k name tags p eq_refl Hp (shared (sc_exec (sched ++ [Run i] ++ mid)))) as [r Hr].
  exists r. unfold returned. replace (sched ++ [Run i] ++ mid ++ [Run i]) with ((sched ++ [Run i] ++ mid) ++ [Run i]) by (rewrite <- !app_assoc; reflexivity).
  rewrite E2. cbn [threads]. rewrite list_lookup_insert by (eapply lookup_lt_Some; exact Ht'). f_equal. exact Hr.
Qed.

Lemma times_keys_exact knd name tags t :
  sk_measurement (times_key (constructor_key KFunc name tags) knd) = B "function_times" /\
  sk_tags (times_key (constructor_key KFunc name tags) knd) !! t =
    if decide (t = B "kind") then Some knd else sk_tags (constructor_key KFunc name tags) !! t.
Proof.
  split; [reflexivity|]. unfold times_key, with_tag. cbn [sk_tags].
  destruct (decide (t = B "kind")) as [->|Hn]; [apply lookup_insert|apply lookup_insert_ne; congruence].
Qed.
Lemma error_key_exact e name tags t :
  sk_measurement (error_key (constructor_key KFunc name tags) e) = B "function" /\
  sk_tags (error_key (constructor_key KFunc name tags) e) !! t =
    if decide (t = B "error_name") then Some e else sk_tags (constructor_key KFunc name tags) !! t.
Proof.
  split; [reflexivity|]. unfold error_key, with_tag. cbn [sk_tags].
  destruct (decide (t = B "error_name")) as [->|Hn]; [apply lookup_insert|apply lookup_insert_ne; congruence].
Qed.
Lemma func_key_exact name tags t :
  (forall val, ~ In (B "name", val) tags) ->
  sk_measurement (constructor_key KFunc name tags) = B "function" /\
  sk_tags (constructor_key KFunc name tags) !! t =
    if decide (t = B "name") then Some name
    else last_tag t tags.
Proof.
  intros H. split; [reflexivity|]. rewrite func_key_tags.
  destruct (decide (t = B "name")) as [->|Hn].
  - rewrite last_tag_none by assumption. reflexivity.
  - destruct (last_tag t tags); reflexivity.
Qed.

Lemma func_object sched i name tags o scope_name :
  returned sched i (CLookup KFunc name tags) (RObj (Ok o)) ->
  (forall j k' name' tags' p, threads (sc_exec sched) !! j = Some (Thr (CLookup k' name' tags') p) -> clean k' name' tags') ->
  (forall val, ~ In (B "name", val) tags) ->
  exists id key, o = Src id KFunc key /\
    func_short_name key = name /\ func_full_name scope_name key = scope_name ++ B "." ++ name /\
    sk_measurement key = B "function" /\
    forall t, sk_tags key !! t = if decide (t = B "name") then Some name else last_tag t tags.
Proof.
  intros Hi Hall Hn. destruct (object_key _ _ _ _ _ _ Hi Hall) as [id ->].
  exists id, (constructor_key KFunc name tags). split; [reflexivity|].
  destruct (func_names name tags scope_name Hn) as [E1 E2]. split; [exact E1|]. split; [exact E2|].
  split; [reflexivity|]. intros t. apply func_key_exact, Hn.
Qed.

Lemma func_times_keys name tags :
  (forall val, ~ In (B "kind", val) tags) -> (forall val, ~ In (B "error_name", val) tags) ->
  let key := constructor_key KFunc name tags in
  success_key key <> failure_key key /\
  (forall knd t, In knd [B "success"; B "failure"] ->
     sk_measurement (times_key key knd) = B "function_times" /\
     sk_tags (times_key key knd) !! t = if decide (t = B "kind") then Some knd else sk_tags key !! t) /\
  (forall e t, sk_measurement (error_key key e) = B "function" /\
     sk_tags (error_key key e) !! t = if decide (t = B "error_name") then Some e else sk_tags key !! t) /\
  sk_tags key !! B "kind" = None /\ sk_tags key !! B "error_name" = None.
Proof.
  intros Hk He key. split; [|split; [|split; [|split]]].
  - intros E. assert (E' := f_equal (fun k => sk_tags k !! B "kind") E). unfold success_key, failure_key in E'.
    destruct (times_keys_exact (B "success") name tags (B "kind")) as [_ E1].
    destruct (times_keys_exact (B "failure") name tags (B "kind")) as [_ E2].
    fold key in E1, E2. rewrite E1, E2 in E'. discriminate.
  - intros knd t _. apply times_keys_exact.
  - intros e t. apply error_key_exact.
  - unfold key. rewrite func_key_tags, last_tag_none by assumption. reflexivity.
  - unfold key. rewrite func_key_tags, last_tag_none by assumption. reflexivity.
Qed.
