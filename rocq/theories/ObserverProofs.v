(** Lemmas about observer lists and trace watchers. *)
From Verif Require Import Base Conc ScopeSpec ObserverModel ObserverSpec.

Definition older (P : list nat) (a b : nat) : Prop := exists i j, (i < j)%nat /\ P !! i = Some a /\ P !! j = Some b.

Lemma older_app P Q a b : older P a b -> older (P ++ Q) a b.
Proof. intros (i & j & Hij & Hi & Hj). exists i, j. split; [exact Hij|]. split; apply lookup_app_l_Some; assumption. Qed.
Lemma older_trans P a b c : NoDup P -> older P a b -> older P b c -> older P a c.
Proof.
  intros Hn (i & j & Hij & Hi & Hj) (j' & k & Hjk & Hj' & Hk).
  assert (j = j') by (eapply NoDup_lookup; eassumption). subst. exists i, k. split; [lia|]. auto.
Qed.
Lemma older_irrefl P a : NoDup P -> ~ older P a a.
Proof. intros Hn (i & j & Hij & Hi & Hj). assert (i = j) by (eapply NoDup_lookup; eassumption). lia. Qed.
Lemma older_asym P a b : NoDup P -> older P a b -> ~ older P b a.
Proof. intros Hn H1 H2. eapply older_irrefl; [exact Hn|]. eapply older_trans; eassumption. Qed.
Lemma older_total P a b : a ∈ P -> b ∈ P -> a = b \/ older P a b \/ older P b a.
Proof.
  intros Ha Hb. apply elem_of_list_lookup in Ha as [i Hi], Hb as [j Hj].
  destruct (lt_eq_lt_dec i j) as [[H| ->]|H].
  - right; left. exists i, j. auto.
  - left. congruence.
  - right; right. exists j, i. auto.
Qed.
Lemma older_elem P a b : older P a b -> a ∈ P /\ b ∈ P.
Proof. intros (i & j & _ & Hi & Hj). split; eapply elem_of_list_lookup_2; eassumption. Qed.
Lemma older_new P a n : a ∈ P -> older (P ++ [n]) a n.
Proof.
  intros Ha. apply elem_of_list_lookup in Ha as [i Hi]. exists i, (length P).
  split; [eapply lookup_lt_Some; exact Hi|]. split; [apply lookup_app_l_Some, Hi|].
  rewrite lookup_app_r by lia. rewrite Nat.sub_diag. reflexivity.
Qed.
Lemma older_snoc P a b n : n ∉ P -> older (P ++ [n]) a b -> older P a b \/ (b = n /\ a ∈ P).
Proof.
  intros Hn (i & j & Hij & Hi & Hj). assert (Hjl := lookup_lt_Some _ _ _ Hj). rewrite app_length in Hjl. cbn in Hjl.
  assert (i < length P)%nat by lia. rewrite lookup_app_l in Hi by assumption.
  destruct (decide (j < length P)%nat) as [Hl|Hl].
  - left. rewrite lookup_app_l in Hj by assumption. exists i, j. auto.
  - right. rewrite lookup_app_r in Hj by lia. replace (j - length P)%nat with 0%nat in Hj by lia.
    split; [cbn in Hj; congruence|]. eapply elem_of_list_lookup_2; exact Hi.
Qed.

(** ** The invariant *)
Record ginv (s : obs) : Prop := {
  G1 : NoDup (ob_pushed s);
  G2 : forall r, r ∈ ob_unlinked s -> r ∈ ob_pushed s;
  G3 : match ob_head s with
       | None => forall r, r ∈ ob_pushed s -> r ∈ ob_unlinked s
       | Some h => h ∈ ob_pushed s /\ h ∉ ob_unlinked s /\
                   forall r, r ∈ ob_pushed s -> r ∈ ob_unlinked s \/ r = h \/ older (ob_pushed s) r h
       end;
  G4 : forall n, n ∈ ob_pushed s ->
       match cdr_of s n with
       | None => forall r, older (ob_pushed s) r n -> r ∈ ob_unlinked s
       | Some m => older (ob_pushed s) m n /\
                   (forall r, older (ob_pushed s) r n -> r ∈ ob_unlinked s \/ r = m \/ older (ob_pushed s) r m) /\
                   (n ∉ ob_unlinked s -> m ∉ ob_unlinked s)
       end
}.
Definition critical (pc : opc) : bool :=
  match pc with C_walk _ | C_load _ | C_cas _ _ | C_unlock => true | _ => false end.
Definition tok (s : obs) (i : nat) (t : othread) : Prop :=
  match ot_call t, ot_pc t with
  | OReg, R_load | OReg, R_cas _ => i ∉ ob_pushed s
  | OReg, R_done => i ∈ ob_pushed s
  | OReg, _ => False
  | OCancel _, C_start => True
  | OCancel r, C_lock => r ∈ ob_pushed s
  | OCancel r, C_walk None => r ∈ ob_pushed s
  | OCancel r, C_walk (Some n) => r ∈ ob_pushed s /\ n ∈ ob_pushed s /\ n ∉ ob_unlinked s /\ (r ∈ ob_unlinked s \/ older (ob_pushed s) r n)
  | OCancel r, C_load None => r ∈ ob_pushed s
  | OCancel r, C_load (Some n) => r ∈ ob_pushed s /\ n ∈ ob_pushed s /\ n ∉ ob_unlinked s /\ cdr_of s n = Some r
  | OCancel r, C_cas None nxt => r ∈ ob_pushed s /\ nxt = cdr_of s r
  | OCancel r, C_cas (Some n) nxt => r ∈ ob_pushed s /\ n ∈ ob_pushed s /\ n ∉ ob_unlinked s /\ cdr_of s n = Some r /\ nxt = cdr_of s r
  | OCancel r, C_unlock | OCancel r, C_done => r ∈ ob_unlinked s
  | OCancel _, _ => False
  | ONotify, N_start | ONotify, N_check _ | ONotify, N_single _ | ONotify, N_call _ _ | ONotify, N_next _ _ | ONotify, N_done _ => True
  | ONotify, _ => False
  end.
Record oinv (s : obs) (ts : list othread) : Prop := {
  I1 : ginv s;
  I2 : forall i t, ts !! i = Some t -> tok s i t;
  I3 : forall i, ob_mtx s = Some i <-> exists t, ts !! i = Some t /\ critical (ot_pc t) = true;
  I4 : forall i, i ∈ ob_pushed s <-> ts !! i = Some (OThr OReg R_done)
}.

Lemma oinv_new : oinv ob_new [].
Proof.
  constructor.
  - constructor; cbn; try (intros ? H; set_solver). constructor.
  - intros i t H. discriminate H.
  - intros i. split; [discriminate|]. intros (t & H & _). discriminate H.
  - intros i. split; [intros H; cbn in H; set_solver|discriminate].
Qed.

Lemma pushed_lt s ts i : oinv s ts -> i ∈ ob_pushed s -> (i < length ts)%nat.
Proof. intros H Hi. apply (I4 _ _ H) in Hi. eapply lookup_lt_Some; exact Hi. Qed.

Lemma oinv_spawn s ts c : oinv s ts -> oinv s (ts ++ [ob_start c]).
Proof.
  intros H. assert (Hnew : forall i t, (ts ++ [ob_start c]) !! i = Some t -> ts !! i = Some t \/ (i = length ts /\ t = ob_start c)).
  { intros i t Hi. apply lookup_app_Some in Hi as [Hi|[Hl Hi]]; [auto|]. right.
    destruct (i - length ts)%nat as [|n] eqn:E; [|destruct n; discriminate Hi]. split; [lia|]. cbn in Hi. congruence. }
  constructor.
  - apply (I1 _ _ H).
  - intros i t Hi. destruct (Hnew _ _ Hi) as [Hi'|[-> ->]]; [apply (I2 _ _ H _ _ Hi')|].
    destruct c as [|r|]; cbn; try exact I. intros Hp. apply (pushed_lt _ _ _ H) in Hp. lia.
  - intros i. rewrite (I3 _ _ H). split.
    + intros (t & Ht & Hc). exists t. split; [apply lookup_app_l_Some, Ht|exact Hc].
    + intros (t & Ht & Hc). destruct (Hnew _ _ Ht) as [Ht'|[-> ->]]; [eauto|]. destruct c; discriminate Hc.
  - intros i. rewrite (I4 _ _ H). split; [apply lookup_app_l_Some|].
    intros Ht. destruct (Hnew _ _ Ht) as [Ht'|[_ E]]; [exact Ht'|]. destruct c; discriminate E.
Qed.

(** A step that changes neither the list nor the lock. *)
Lemma oinv_quiet s ts i t t' :
  oinv s ts -> ts !! i = Some t -> tok s i t' -> critical (ot_pc t') = critical (ot_pc t) ->
  (t' = OThr OReg R_done <-> t = OThr OReg R_done) ->
  oinv s (<[i := t']> ts).
Proof.
  intros H Hi Hk Hc Hr. assert (Hlt : (i < length ts)%nat) by (eapply lookup_lt_Some; exact Hi). constructor.
  - apply (I1 _ _ H).
  - intros j u Hj. apply list_lookup_insert_Some in Hj as [(<- & <- & _)|[_ Hj]]; [exact Hk|apply (I2 _ _ H _ _ Hj)].
  - intros j. rewrite (I3 _ _ H). destruct (decide (j = i)) as [->|Hne].
    + rewrite list_lookup_insert by exact Hlt. split; intros (u & Hu & Hcu).
      * exists t'. split; [reflexivity|]. congruence.
      * exists t. split; [exact Hi|]. injection Hu as <-. congruence.
    + rewrite list_lookup_insert_ne by congruence. reflexivity.
  - intros j. rewrite (I4 _ _ H). destruct (decide (j = i)) as [->|Hne].
    + rewrite list_lookup_insert by exact Hlt. rewrite Hi. split; intros E; injection E as E; f_equal; tauto.
    + rewrite list_lookup_insert_ne by congruence. reflexivity.
Qed.

Lemma tok_mtx s m i t : tok (set_mtx s m) i t <-> tok s i t.
Proof. destruct t as [[|r|] pc]; destruct pc as [|e| | | |[n|]|[n|]|[n|] x| | | |n|n|n acc|n acc|acc]; reflexivity. Qed.
Lemma ginv_mtx s m : ginv s -> ginv (set_mtx s m).
Proof. intros [H1 H2 H3 H4]. constructor; assumption. Qed.

Lemma cdr_insert s h m P R n v : cdr_of (Obs h (<[n := v]> (ob_cdr s)) m P R) n = v.
Proof. unfold cdr_of. cbn. rewrite lookup_insert. reflexivity. Qed.
Lemma cdr_insert_ne s h m P R n k v : k <> n -> cdr_of (Obs h (<[n := v]> (ob_cdr s)) m P R) k = cdr_of s k.
Proof. intros H. unfold cdr_of. cbn. rewrite lookup_insert_ne by congruence. reflexivity. Qed.

(** Pushing. *)
Lemma ginv_push s i : ginv s -> i ∉ ob_pushed s ->
  ginv (Obs (Some i) (<[i := ob_head s]> (ob_cdr s)) (ob_mtx s) (ob_pushed s ++ [i]) (ob_unlinked s)).
Proof.
  intros [H1 H2 H3 H4] Hi. assert (Hn : NoDup (ob_pushed s ++ [i])).
  { apply NoDup_app. split; [exact H1|]. split; [|apply NoDup_singleton]. intros x Hx Hx'. apply elem_of_list_singleton in Hx'. congruence. }
  constructor; cbn [ob_head ob_pushed ob_unlinked].
  - exact Hn.
  - intros r Hr. apply elem_of_app. left. apply H2, Hr.
  - split; [apply elem_of_app; right; set_solver|]. split; [intros Hr; apply H2 in Hr; contradiction|].
    intros r Hr. apply elem_of_app in Hr as [Hr|Hr]; [|right; left; set_solver]. right; right. apply older_new, Hr.
  - intros n Hn'. destruct (decide (n = i)) as [->|Hne].
    + rewrite cdr_insert. destruct (ob_head s) as [h|] eqn:Eh.
      * destruct H3 as (Hh & Hu & Hall). split; [apply older_new, Hh|]. split; [|auto].
        intros r Hr. apply older_snoc in Hr as [Hr|[_ Hr]]; [|destruct (Hall _ Hr) as [?|[?|?]]; [auto|auto|right; right; apply older_app; assumption]|exact Hi].
        destruct (older_elem _ _ _ Hr). contradiction.
      * intros r Hr. apply older_snoc in Hr as [Hr|[_ Hr]]; [|apply H3, Hr|exact Hi]. destruct (older_elem _ _ _ Hr). contradiction.
    + rewrite cdr_insert_ne by exact Hne. apply elem_of_app in Hn' as [Hn'|Hn']; [|set_solver].
      specialize (H4 _ Hn'). assert (Hsn : forall r, older (ob_pushed s ++ [i]) r n -> older (ob_pushed s) r n).
      { intros r Hr. apply older_snoc in Hr as [Hr|[-> _]]; [exact Hr|congruence|exact Hi]. }
      destruct (cdr_of s n) as [m|].
      * destruct H4 as (Ha & Hb & Hc). split; [apply older_app, Ha|]. split; [|exact Hc].
        intros r Hr. destruct (Hb _ (Hsn _ Hr)) as [?|[?|?]]; [auto|auto|right; right; apply older_app; assumption].
      * intros r Hr. apply H4, Hsn, Hr.
Qed.

Lemma tok_push s i j t : tok s j t -> j <> i -> ginv s -> i ∉ ob_pushed s ->
  tok (Obs (Some i) (<[i := ob_head s]> (ob_cdr s)) (ob_mtx s) (ob_pushed s ++ [i]) (ob_unlinked s)) j t.
Proof.
  intros H Hji Hg Hi. set (s' := Obs _ _ _ _ _).
  assert (Hp : forall r, r ∈ ob_pushed s -> r ∈ ob_pushed s') by (intros r Hr; cbn; set_solver).
  assert (Hq : j ∉ ob_pushed s -> j ∉ ob_pushed s') by (intros Hj; cbn; rewrite elem_of_app, elem_of_list_singleton; tauto).
  assert (Hc : forall n, n ∈ ob_pushed s -> cdr_of s' n = cdr_of s n).
  { intros n Hn. apply cdr_insert_ne. congruence. }
  assert (Ho : forall a b, older (ob_pushed s) a b -> older (ob_pushed s') a b) by (intros; apply older_app; assumption).
  destruct t as [[|r|] pc]; destruct pc as [|e| | | |[n|]|[n|]|[n|] x| | | |n|n|n acc|n acc|acc]; unfold tok in *; cbn [ot_call ot_pc] in *; auto.
  - destruct H as (? & ? & ? & [?|?]); repeat split; auto.
  - destruct H as (? & ? & ? & E); repeat split; auto. rewrite Hc; auto.
  - destruct H as (? & ? & ? & E & E'); repeat split; auto; rewrite Hc; auto.
  - destruct H as (? & E); split; auto. rewrite Hc; auto.
Qed.

(** Unlinking. *)
Lemma ginv_unlink s r parent : ginv s -> r ∈ ob_pushed s -> load_ptr s parent = Some r ->
  match parent with None => True | Some n => n ∈ ob_pushed s /\ n ∉ ob_unlinked s end ->
  ginv (store_ptr s parent (cdr_of s r) ({[r]} ∪ ob_unlinked s)) /\ r ∉ ob_unlinked s.
Proof.
  intros [H1 H2 H3 H4] Hr Hl Hp. set (P := ob_pushed s) in *. set (R := ob_unlinked s) in *.
  assert (Hlive : r ∉ R).
  { destruct parent as [n|]; cbn in Hl.
    - destruct Hp as [Hn Hn']. specialize (H4 _ Hn). rewrite Hl in H4. apply H4, Hn'.
    - rewrite Hl in H3. apply H3. }
  (* no other live node has r as its cdr *)
  assert (Huniq : forall n, n ∈ P -> n ∉ R -> cdr_of s n = Some r -> parent = Some n).
  { intros n Hn Hnl Hc. specialize (H4 _ Hn) as Hn4. rewrite Hc in Hn4. destruct Hn4 as (Hrn & _ & _).
    destruct parent as [q|]; cbn in Hl.
    - destruct Hp as [Hq Hql]. pose proof (H4 _ Hq) as Hq4. rewrite Hl in Hq4. destruct Hq4 as (Hrq & Hqall & _).
      pose proof (H4 _ Hn) as Hn5. rewrite Hc in Hn5. destruct Hn5 as (_ & Hnall & _).
      destruct (older_total P n q Hn Hq) as [->|[Hnq|Hqn]]; [reflexivity| |].
      + destruct (Hqall _ Hnq) as [?|[->|Hnr]]; [contradiction|exfalso; eapply older_irrefl; eassumption|].
        exfalso. eapply older_asym; eassumption.
      + destruct (Hnall _ Hqn) as [?|[->|Hqr]]; [contradiction|exfalso; eapply older_irrefl; eassumption|].
        exfalso. eapply older_asym; eassumption.
    - rewrite Hl in H3. destruct H3 as (_ & _ & Hall). destruct (Hall _ Hn) as [?|[->|Hnr]]; [contradiction| |].
      + exfalso; eapply older_irrefl; eassumption.
      + exfalso; eapply older_asym; eassumption. }
  split; [|exact Hlive].
  pose proof (H4 _ Hr) as Hr4.
  (* what the new value of the parent pointer means *)
  assert (Hnext : forall (Q : nat -> Prop), (forall x, Q x -> x ∈ R \/ x = r \/ older P x r) ->
            match cdr_of s r with
            | None => forall x, Q x -> x ∈ {[r]} ∪ R
            | Some m => older P m r /\ m ∈ P /\ m ∉ {[r]} ∪ R /\ forall x, Q x -> x ∈ {[r]} ∪ R \/ x = m \/ older P x m
            end).
  { intros Q HQ. destruct (cdr_of s r) as [m|].
    - destruct Hr4 as (Ha & Hb & Hc). split; [exact Ha|]. split; [apply (older_elem _ _ _ Ha)|].
      split. { intros Hm. apply elem_of_union in Hm as [Hm|Hm]; [|exact (Hc Hlive Hm)].
               apply elem_of_singleton in Hm. subst. eapply older_irrefl; eassumption. }
      intros x Hx. destruct (HQ _ Hx) as [?|[->|Hxr]]; [set_solver|set_solver|]. destruct (Hb _ Hxr) as [?|[?|?]]; [set_solver|auto|auto].
    - intros x Hx. destruct (HQ _ Hx) as [?|[->|Hxr]]; [set_solver|set_solver|]. specialize (Hr4 _ Hxr). set_solver. }
  assert (Hother : forall n, n ∈ P -> parent <> Some n ->
            match cdr_of s n with
            | None => forall x, older P x n -> x ∈ {[r]} ∪ R
            | Some m => older P m n /\ (forall x, older P x n -> x ∈ {[r]} ∪ R \/ x = m \/ older P x m) /\ (n ∉ {[r]} ∪ R -> m ∉ {[r]} ∪ R)
            end).
  { intros n Hn Hne. pose proof (H4 _ Hn) as Hn4. destruct (cdr_of s n) as [m|] eqn:Ec.
    - destruct Hn4 as (Ha & Hb & Hc). split; [exact Ha|]. split.
      + intros x Hx. destruct (Hb _ Hx) as [?|[?|?]]; [set_solver|auto|auto].
      + intros Hnu Hmu. assert (Hnl : n ∉ R) by set_solver.
        apply elem_of_union in Hmu as [Hmu|Hmu]; [|exact (Hc Hnl Hmu)]. apply elem_of_singleton in Hmu. subst m.
        apply Hne. apply Huniq; assumption.
    - intros x Hx. specialize (Hn4 _ Hx). set_solver. }
  destruct parent as [q|]; cbn [store_ptr]; cbn in Hl.
  - destruct Hp as [Hq Hql]. pose proof (H4 _ Hq) as Hq4. rewrite Hl in Hq4. destruct Hq4 as (Hrq & Hqall & _).
    constructor; cbn [ob_head ob_pushed ob_unlinked].
    + exact H1.
    + intros x Hx. apply elem_of_union in Hx as [Hx|Hx]; [apply elem_of_singleton in Hx; subst; exact Hr|apply H2, Hx].
    + destruct (ob_head s) as [h|].
      * destruct H3 as (Hh & Hhl & Hall). split; [exact Hh|]. split.
        { intros Hx. apply elem_of_union in Hx as [Hx|Hx]; [|contradiction]. apply elem_of_singleton in Hx. subst h.
          destruct (Hall _ Hq) as [?|[->|Hqr]]; [contradiction|eapply older_irrefl; eassumption|eapply older_asym; eassumption]. }
        intros x Hx. destruct (Hall _ Hx) as [?|[?|?]]; [set_solver|auto|auto].
      * intros x Hx. specialize (H3 _ Hx). set_solver.
    + intros n Hn. destruct (decide (n = q)) as [->|Hne].
      * rewrite cdr_insert. specialize (Hnext (fun x => older P x q) Hqall). destruct (cdr_of s r) as [m|].
        -- destruct Hnext as (Ha & Hb & Hc & Hd). split; [eapply older_trans; eassumption|]. auto.
        -- exact Hnext.
      * rewrite cdr_insert_ne by exact Hne. apply Hother; [exact Hn|congruence].
  - rewrite Hl in H3. destruct H3 as (_ & _ & Hall).
    constructor; cbn [ob_head ob_pushed ob_unlinked].
    + exact H1.
    + intros x Hx. apply elem_of_union in Hx as [Hx|Hx]; [apply elem_of_singleton in Hx; subst; exact Hr|apply H2, Hx].
    + specialize (Hnext (fun x => x ∈ P) Hall). destruct (cdr_of s r) as [m|]; [|exact Hnext].
      destruct Hnext as (Ha & Hb & Hc & Hd). auto.
    + intros n Hn. apply Hother; [exact Hn|discriminate].
Qed.

Lemma load_cdr s h m P R n : ob_cdr s = ob_cdr s -> cdr_of (Obs h (ob_cdr s) m P R) n = cdr_of s n.
Proof. reflexivity. Qed.

Lemma oinv_step s ts i t : oinv s ts -> ts !! i = Some t -> oinv (fst (ob_step i s t)) (<[i := snd (ob_step i s t)]> ts).
Proof.
  intros H Hi. pose proof (I2 _ _ H _ _ Hi) as Ht. pose proof (I1 _ _ H) as Hg.
  assert (Hlt : (i < length ts)%nat) by (eapply lookup_lt_Some; exact Hi).
  destruct t as [c pc]. unfold ob_step. cbn [ot_call ot_pc].
  destruct c as [|r|].
  - (* ObserveSpans *)
    destruct pc; try contradiction; cbn [fst snd].
    + apply (oinv_quiet _ _ _ _ _ H Hi); [exact Ht|reflexivity|split; discriminate].
    + destruct (bool_decide (ob_head s = existing)) eqn:E; cbn [fst snd].
      2: { apply (oinv_quiet _ _ _ _ _ H Hi); [exact Ht|reflexivity|split; discriminate]. }
      apply bool_decide_eq_true in E. subst existing. unfold tok in Ht. cbn in Ht.
      constructor.
      * apply ginv_push; assumption.
      * intros j u Hj. apply list_lookup_insert_Some in Hj as [(<- & <- & _)|[Hne Hj]].
        -- unfold tok. cbn. set_solver.
        -- apply tok_push; [apply (I2 _ _ H _ _ Hj)|congruence|exact Hg|exact Ht].
      * intros j. cbn [ob_mtx]. rewrite (I3 _ _ H). destruct (decide (j = i)) as [->|Hne].
        -- rewrite list_lookup_insert by exact Hlt. split; intros (u & Hu & Hcu); [rewrite Hi in Hu; injection Hu as <-; discriminate Hcu|].
           injection Hu as <-. discriminate Hcu.
        -- rewrite list_lookup_insert_ne by congruence. reflexivity.
      * intros j. cbn [ob_pushed]. rewrite elem_of_app, elem_of_list_singleton, (I4 _ _ H). destruct (decide (j = i)) as [->|Hne].
        -- rewrite list_lookup_insert by exact Hlt. split; [reflexivity|auto].
        -- rewrite list_lookup_insert_ne by congruence. tauto.
    + apply (oinv_quiet _ _ _ _ _ H Hi); [exact Ht|reflexivity|tauto].
  - (* cancel *)
    destruct pc; try contradiction; cbn [fst snd].
    + destruct (bool_decide (r ∈ ob_pushed s)) eqn:E; cbn [fst snd].
      * apply bool_decide_eq_true in E. apply (oinv_quiet _ _ _ _ _ H Hi); [exact E|reflexivity|split; discriminate].
      * apply (oinv_quiet _ _ _ _ _ H Hi); [exact Ht|reflexivity|tauto].
    + destruct (ob_mtx s) as [m|] eqn:Em; cbn [fst snd].
      { apply (oinv_quiet _ _ _ _ _ H Hi); [exact Ht|reflexivity|tauto]. }
      constructor.
      * apply ginv_mtx, Hg.
      * intros j u Hj. apply tok_mtx. apply list_lookup_insert_Some in Hj as [(<- & <- & _)|[_ Hj]]; [exact Ht|apply (I2 _ _ H _ _ Hj)].
      * intros j. cbn [ob_mtx set_mtx]. destruct (decide (j = i)) as [->|Hne].
        -- rewrite list_lookup_insert by exact Hlt. split; [intros _; eexists; split; reflexivity|reflexivity].
        -- rewrite list_lookup_insert_ne by congruence. rewrite <- (I3 _ _ H), Em. split; congruence.
      * intros j. cbn [ob_pushed set_mtx]. rewrite (I4 _ _ H). destruct (decide (j = i)) as [->|Hne].
        -- rewrite list_lookup_insert by exact Hlt. rewrite Hi. split; discriminate.
        -- rewrite list_lookup_insert_ne by congruence. reflexivity.
    + (* walk *)
      assert (Hrp : r ∈ ob_pushed s) by (destruct parent; [apply Ht|exact Ht]).
      destruct (load_ptr s parent) as [e|] eqn:El; cbn [fst snd].
      * assert (He : e ∈ ob_pushed s /\ e ∉ ob_unlinked s /\ (r ∈ ob_unlinked s \/ r = e \/ older (ob_pushed s) r e)).
        { destruct parent as [n|]; cbn in El.
          - destruct Ht as (_ & Hn & Hnl & Ho). pose proof (G4 _ Hg _ Hn) as H4. rewrite El in H4. destruct H4 as (Ha & Hb & Hc).
            split; [apply (older_elem _ _ _ Ha)|]. split; [apply Hc, Hnl|]. destruct Ho as [?|Ho]; [auto|]. apply Hb, Ho.
          - pose proof (G3 _ Hg) as H3. rewrite El in H3. destruct H3 as (Ha & Hb & Hc). split; [exact Ha|]. split; [exact Hb|]. apply Hc, Hrp. }
        destruct He as (He1 & He2 & He3). destruct (Nat.eqb_spec e r) as [->|Hne]; cbn [fst snd].
        -- apply (oinv_quiet _ _ _ _ _ H Hi); [|reflexivity|split; discriminate]. unfold tok. cbn [ot_call ot_pc].
           destruct parent as [n|]; [|exact Hrp]. destruct Ht as (_ & Hn & Hnl & _). cbn in El. auto.
        -- apply (oinv_quiet _ _ _ _ _ H Hi); [|reflexivity|split; discriminate]. unfold tok. cbn [ot_call ot_pc].
           split; [exact Hrp|]. split; [exact He1|]. split; [exact He2|]. destruct He3 as [?|[?|?]]; [auto|congruence|auto].
      * apply (oinv_quiet _ _ _ _ _ H Hi); [|reflexivity|split; discriminate]. unfold tok. cbn [ot_call ot_pc].
        destruct parent as [n|]; cbn in El.
        -- destruct Ht as (_ & Hn & Hnl & [?|Ho]); [assumption|]. pose proof (G4 _ Hg _ Hn) as H4. rewrite El in H4. apply H4, Ho.
        -- pose proof (G3 _ Hg) as H3. rewrite El in H3. apply H3, Hrp.
    + apply (oinv_quiet _ _ _ _ _ H Hi); [|reflexivity|split; discriminate]. unfold tok in *. cbn [ot_call ot_pc] in *.
      destruct parent as [n|]; [|auto]. destruct Ht as (? & ? & ? & ?). auto.
    + destruct (bool_decide (load_ptr s parent = Some r)) eqn:E; cbn [fst snd].
      2: { apply (oinv_quiet _ _ _ _ _ H Hi); [|reflexivity|split; discriminate]. unfold tok. cbn. destruct parent; apply Ht. }
      apply bool_decide_eq_true in E.
      assert (Hrp : r ∈ ob_pushed s) by (destruct parent; apply Ht).
      assert (Enxt : nxt = cdr_of s r) by (destruct parent; apply Ht). subst nxt.
      destruct (ginv_unlink s r parent Hg Hrp E) as [Hg' Hlive].
      { destruct parent as [n|]; [|exact I]. destruct Ht as (_ & Hn & Hnl & _). auto. }
      assert (Hmtx : ob_mtx s = Some i). { apply (I3 _ _ H). eexists. split; [exact Hi|reflexivity]. }
      set (s' := store_ptr s parent (cdr_of s r) ({[r]} ∪ ob_unlinked s)) in *.
      assert (EP : ob_pushed s' = ob_pushed s) by (destruct parent; reflexivity).
      assert (EM : ob_mtx s' = ob_mtx s) by (destruct parent; reflexivity).
      assert (EU : ob_unlinked s' = {[r]} ∪ ob_unlinked s) by (destruct parent; reflexivity).
      constructor.
      * exact Hg'.
      * intros j u Hj. apply list_lookup_insert_Some in Hj as [(<- & <- & _)|[Hne Hj]].
        -- unfold tok. cbn. rewrite EU. set_solver.
        -- pose proof (I2 _ _ H _ _ Hj) as Hu. assert (Hnc : critical (ot_pc u) = false).
           { destruct (critical (ot_pc u)) eqn:Ecr; [|reflexivity]. exfalso.
             assert (ob_mtx s = Some j) by (apply (I3 _ _ H); eauto). congruence. }
           destruct u as [[|r'|] pc]; destruct pc as [|e| | | |[n|]|[n|]|[n|] x| | | |n|n|n acc|n acc|acc];
             unfold tok in *; cbn [ot_call ot_pc critical] in *; try discriminate Hnc; rewrite ?EP, ?EU; try exact Hu. set_solver.
      * intros j. rewrite EM, (I3 _ _ H). destruct (decide (j = i)) as [->|Hne].
        -- rewrite list_lookup_insert by exact Hlt. split; intros _; [eexists; split; reflexivity|]. eexists; split; [exact Hi|reflexivity].
        -- rewrite list_lookup_insert_ne by congruence. reflexivity.
      * intros j. rewrite EP, (I4 _ _ H). destruct (decide (j = i)) as [->|Hne].
        -- rewrite list_lookup_insert by exact Hlt. rewrite Hi. split; discriminate.
        -- rewrite list_lookup_insert_ne by congruence. reflexivity.
    + assert (Hmtx : ob_mtx s = Some i). { apply (I3 _ _ H). eexists. split; [exact Hi|reflexivity]. }
      constructor.
      * apply ginv_mtx, Hg.
      * intros j u Hj. apply tok_mtx. apply list_lookup_insert_Some in Hj as [(<- & <- & _)|[_ Hj]]; [exact Ht|apply (I2 _ _ H _ _ Hj)].
      * intros j. cbn [ob_mtx set_mtx]. destruct (decide (j = i)) as [->|Hne].
        -- rewrite list_lookup_insert by exact Hlt. split; [discriminate|]. intros (u & Hu & Hc). injection Hu as <-. discriminate Hc.
        -- rewrite list_lookup_insert_ne by congruence. rewrite <- (I3 _ _ H), Hmtx. split; congruence.
      * intros j. cbn [ob_pushed set_mtx]. rewrite (I4 _ _ H). destruct (decide (j = i)) as [->|Hne].
        -- rewrite list_lookup_insert by exact Hlt. rewrite Hi. split; discriminate.
        -- rewrite list_lookup_insert_ne by congruence. reflexivity.
    + apply (oinv_quiet _ _ _ _ _ H Hi); [exact Ht|reflexivity|tauto].
  - (* notification *)
    destruct pc; try contradiction; cbn [fst snd];
      repeat match goal with |- context [match ?x with None => _ | Some _ => _ end] => destruct x end; cbn [fst snd];
      apply (oinv_quiet _ _ _ _ _ H Hi); try exact I; try reflexivity; split; discriminate.
Qed.

Lemma oinv_exec sched : oinv (shared (ob_exec sched)) (threads (ob_exec sched)).
Proof.
  apply (exec_inv ob_start ob_step oinv ob_new).
  - apply oinv_new.
  - intros s ts c. apply oinv_spawn.
  - intros s ts i t. apply oinv_step.
Qed.

(** ** One pass, seen from a moment before it began *)
Section pass.
  Context (pre : list (action ocall)) (p : nat) (Hnb : not_begun pre p).
  Local Notation P0 := (ob_pushed (shared (ob_exec pre))).
  Local Notation R0 := (ob_unlinked (shared (ob_exec pre))).

  (** Newest first. *)
  Definition descending (P : list nat) (l : list nat) : Prop := forall i j a b, (i < j)%nat -> l !! i = Some a -> l !! j = Some b -> older P b a.

  Definition visit (s : obs) (n : nat) (acc : list nat) : Prop :=
    n ∈ ob_pushed s /\ n ∉ R0 /\ descending (ob_pushed s) (acc ++ [n]) /\
    (forall x, x ∈ acc -> x ∉ R0 /\ x ∈ ob_pushed s) /\
    (forall r, r ∈ P0 -> r ∈ ob_unlinked s \/ r ∈ acc \/ r = n \/ older (ob_pushed s) r n).
  Definition over (s : obs) (acc : list nat) : Prop :=
    descending (ob_pushed s) acc /\ (forall x, x ∈ acc -> x ∉ R0 /\ x ∈ ob_pushed s) /\
    (forall r, r ∈ P0 -> r ∈ ob_unlinked s \/ r ∈ acc).

  Definition pass_ok (s : obs) (t : othread) : Prop :=
    match ot_pc t with
    | N_check n | N_single n => visit s n [] /\ (match ot_pc t with N_single _ => cdr_of s n = None | _ => True end)
    | N_call n acc => visit s n acc
    | N_next n acc => exists acc', acc = acc' ++ [n] /\ visit s n acc'
    | N_done acc => over s acc
    | _ => True
    end.

  Definition snap (s : obs) : Prop :=
    (forall r, r ∈ P0 -> r ∈ ob_pushed s) /\ (forall r, r ∈ R0 -> r ∈ ob_unlinked s) /\
    (forall n m, n ∈ ob_pushed s -> n ∉ R0 -> cdr_of s n = Some m -> m ∉ R0) /\
    (forall n, n ∈ ob_pushed s -> cdr_of s n = None -> True).

  (** How a step changes the list. *)
  Definition grows (s s' : obs) : Prop :=
    (exists Q, ob_pushed s' = ob_pushed s ++ Q) /\ (forall r, r ∈ ob_unlinked s -> r ∈ ob_unlinked s').

  Lemma step_grows i s t : grows s (fst (ob_step i s t)).
  Proof.
    clear. unfold grows.
    assert (H0 : exists Q, ob_pushed s = ob_pushed s ++ Q) by (exists []; symmetry; apply app_nil_r).
    destruct t as [[|r|] pc]; destruct pc as [|e| | | |par|par|par x| | | |n|n|n acc|n acc|acc]; unfold ob_step; cbn [ot_call ot_pc fst]; auto.
    - destruct (bool_decide _); cbn; [|auto]. split; [eauto|auto].
    - destruct (bool_decide _); auto.
    - destruct (ob_mtx s); cbn; auto.
    - destruct (load_ptr s par) as [e|]; [destruct (Nat.eqb e r)|]; auto.
    - destruct (bool_decide _); cbn; [|auto]. destruct par; cbn; (split; [exact H0|set_solver]).
    - destruct (ob_head s); auto.
    - destruct (cdr_of s n); auto.
    - destruct (cdr_of s n); auto.
  Qed.

  (** A nil cdr stays nil unless the node is new. *)
  Lemma step_cdr ts i s t : oinv s ts -> ts !! i = Some t -> forall n, n ∈ ob_pushed s ->
    cdr_of (fst (ob_step i s t)) n = cdr_of s n \/
    (exists r, cdr_of s n = Some r /\ r ∉ ob_unlinked s /\ r ∈ ob_pushed s /\ cdr_of (fst (ob_step i s t)) n = cdr_of s r).
  Proof.
    clear. intros H Hi n Hn. pose proof (I2 _ _ H _ _ Hi) as Ht.
    destruct t as [[|r|] pc]; destruct pc as [|e| | | |par|par|par x| | | |m|m|m acc|m acc|acc]; unfold ob_step; cbn [ot_call ot_pc fst]; auto.
    - destruct (bool_decide (ob_head s = e)); cbn; [|auto]. left. apply cdr_insert_ne. unfold tok in Ht. cbn in Ht. congruence.
    - destruct (bool_decide _); auto.
    - destruct (ob_mtx s); cbn; auto.
    - destruct (load_ptr s par) as [e|]; [destruct (Nat.eqb e r)|]; auto.
    - destruct (bool_decide (load_ptr s par = Some r)) eqn:E; cbn; [|auto]. apply bool_decide_eq_true in E.
      destruct par as [q|]; cbn; [|auto]. destruct (decide (n = q)) as [->|Hne].
      + right. destruct Ht as (Hr & Hq & Hql & Hc & ->). exists r. split; [exact Hc|].
        pose proof (G4 _ (I1 _ _ H) _ Hq) as H4. rewrite Hc in H4. split; [apply H4, Hql|]. split; [exact Hr|].
        apply cdr_insert.
      + left. apply cdr_insert_ne. exact Hne.
    - destruct (ob_head s); auto.
    - destruct (cdr_of s m); auto.
    - destruct (cdr_of s m); auto.
  Qed.

  Lemma descending_app P Q l : descending P l -> descending (P ++ Q) l.
  Proof using. clear. intros H i j a b Hij Ha Hb. apply older_app. eapply H; eassumption. Qed.
  Lemma visit_grows s s' n acc : grows s s' -> visit s n acc -> visit s' n acc.
  Proof.
    clear. intros [[Q EQ] Hu] (H1 & H2 & H3 & H4 & H5). unfold visit. rewrite EQ.
    split; [set_solver|]. split; [exact H2|]. split; [apply descending_app, H3|]. split.
    - intros x Hx. split; [apply H4, Hx|]. apply elem_of_app. left. apply H4, Hx.
    - intros r Hr. destruct (H5 _ Hr) as [?|[?|[?|?]]]; [auto|auto|auto|right; right; right; apply older_app; assumption].
  Qed.
  Lemma over_grows s s' acc : grows s s' -> over s acc -> over s' acc.
  Proof.
    clear. intros [[Q EQ] Hu] (H1 & H2 & H3). unfold over. rewrite EQ.
    split; [apply descending_app, H1|]. split.
    - intros x Hx. split; [apply H2, Hx|]. apply elem_of_app. left. apply H2, Hx.
    - intros r Hr. destruct (H3 _ Hr) as [?|?]; auto.
  Qed.
  Lemma pass_grows ts i s t u : oinv s ts -> ts !! i = Some t ->
    pass_ok s u -> pass_ok (fst (ob_step i s t)) u.
  Proof.
    clear. intros H Hi Hu. pose proof (step_grows i s t) as Hg.
    destruct u as [c pc]. unfold pass_ok in *. cbn [ot_pc] in *. destruct pc as [|e| | | |par|par|par x| | | |n|n|n acc|n acc|acc]; auto.
    - destruct Hu as [Hv _]. split; [eapply visit_grows; eassumption|exact I].
    - destruct Hu as [Hv Hc]. split; [eapply visit_grows; eassumption|].
      destruct (step_cdr _ _ _ _ H Hi n (proj1 Hv)) as [E|(r & E & _)]; congruence.
    - eapply visit_grows; eassumption.
    - destruct Hu as (acc' & -> & Hv). exists acc'. split; [reflexivity|]. eapply visit_grows; eassumption.
    - eapply over_grows; eassumption.
  Qed.

  Lemma descending_snoc Pl l n m : NoDup Pl -> descending Pl (l ++ [n]) -> older Pl m n -> descending Pl ((l ++ [n]) ++ [m]).
  Proof.
    clear. intros Hn Hd Hm i j a b Hij Ha Hb.
    assert (Hjl := lookup_lt_Some _ _ _ Hb). rewrite app_length in Hjl. cbn in Hjl.
    destruct (decide (j < length (l ++ [n]))%nat) as [Hl|Hl].
    - rewrite lookup_app_l in Ha by lia. rewrite lookup_app_l in Hb by lia. exact (Hd _ _ _ _ Hij Ha Hb).
    - rewrite lookup_app_r in Hb by lia. replace (j - length (l ++ [n]))%nat with 0%nat in Hb by lia. cbn in Hb.
      assert (b = m) by congruence. subst b. rewrite lookup_app_l in Ha by lia. rewrite app_length in Hjl, Hl. cbn in Hjl, Hl.
      destruct (decide (i = length l)) as [->|Hi].
      + rewrite lookup_app_r in Ha by lia. rewrite Nat.sub_diag in Ha. cbn in Ha. assert (a = n) by congruence. subst. exact Hm.
      + eapply older_trans; [exact Hn|exact Hm|]. apply (Hd i (length l) a n); [|exact Ha|].
        * apply lookup_lt_Some in Ha. rewrite app_length in Ha. cbn in Ha. lia.
        * rewrite lookup_app_r by lia. rewrite Nat.sub_diag. reflexivity.
  Qed.

  Lemma pass_self ts s t : oinv s ts -> ts !! p = Some t -> snap s -> pass_ok s t -> pass_ok (fst (ob_step p s t)) (snd (ob_step p s t)).
  Proof.
    clear Hnb. intros H Hi Hs Hk. pose proof (I1 _ _ H) as Hg.
    destruct t as [[|r|] pc].
    - destruct pc; unfold ob_step; cbn [ot_call ot_pc]; try exact Hk. destruct (bool_decide _); exact I.
    - destruct pc; unfold ob_step; cbn [ot_call ot_pc]; try exact Hk; try exact I.
      + destruct (bool_decide _); exact I.
      + destruct (ob_mtx s); exact I.
      + destruct (load_ptr s parent) as [e|]; [destruct (Nat.eqb e r)|]; exact I.
      + destruct (bool_decide _); exact I.
    - destruct Hs as (Hp & Hr & Hc & _). destruct pc as [|e| | | |par|par|par x| | | |n|n|n acc|n acc|acc]; unfold ob_step; cbn [ot_call ot_pc]; try exact Hk.
      + pose proof (G3 _ Hg) as H3. destruct (ob_head s) as [h|]; unfold pass_ok; cbn.
        * destruct H3 as (Ha & Hb & Hall). split; [|exact I]. split; [exact Ha|]. split; [intros Hh; apply Hb, Hr, Hh|].
          split; [|split; [intros x Hx; set_solver|]].
          -- intros i j a b Hij Ha' Hb'. destruct i as [|i]; [|destruct i; discriminate Ha'].
             destruct j as [|j]; [lia|]. destruct j; discriminate Hb'.
          -- intros x Hx. destruct (Hall _ (Hp _ Hx)) as [?|[?|?]]; auto.
        * split; [intros i j a b Hij Ha; discriminate Ha|]. split; [intros x Hx; set_solver|]. intros x Hx. left. apply H3, Hp, Hx.
      + unfold pass_ok in Hk. cbn in Hk. destruct Hk as [Hk _]. destruct (cdr_of s n) as [m|] eqn:E; unfold pass_ok; cbn; auto.
      + unfold pass_ok in *. cbn in *. destruct Hk as [Hk Hcn]. destruct Hk as (H1 & H2 & H3 & H4 & H5).
        split; [exact H3|]. split; [intros x Hx; apply elem_of_list_singleton in Hx; subst; auto|].
        intros x Hx. destruct (H5 _ Hx) as [?|[?|[->|Ho]]]; [auto|set_solver|set_solver|].
        left. pose proof (G4 _ Hg _ H1) as H4'. rewrite Hcn in H4'. apply H4', Ho.
      + unfold pass_ok in *. cbn in *. eauto.
      + unfold pass_ok in Hk. cbn in Hk. destruct Hk as (acc' & -> & (H1 & H2 & H3 & H4 & H5)).
        pose proof (G4 _ Hg _ H1) as Hn4. destruct (cdr_of s n) as [m|] eqn:E; unfold pass_ok; cbn.
        * destruct Hn4 as (Ha & Hb & _). split; [apply (older_elem _ _ _ Ha)|]. split; [apply (Hc n); assumption|].
          split; [apply descending_snoc; [apply Hg|exact H3|exact Ha]|]. split.
          -- intros x Hx. apply elem_of_app in Hx as [Hx|Hx]; [apply H4, Hx|]. apply elem_of_list_singleton in Hx. subst; auto.
          -- intros x Hx. destruct (H5 _ Hx) as [?|[?|[->|Ho]]]; [auto|set_solver|set_solver|].
             destruct (Hb _ Ho) as [?|[?|?]]; auto.
        * split; [exact H3|]. split.
          -- intros x Hx. apply elem_of_app in Hx as [Hx|Hx]; [apply H4, Hx|]. apply elem_of_list_singleton in Hx. subst; auto.
          -- intros x Hx. destruct (H5 _ Hx) as [?|[?|[->|Ho]]]; [auto|set_solver|set_solver|]. left. apply Hn4, Ho.
  Qed.

  Lemma step_unlinked ts i s t : oinv s ts -> ts !! i = Some t -> forall x, x ∈ ob_unlinked (fst (ob_step i s t)) -> x ∈ ob_pushed s.
  Proof.
    clear. intros H Hi x Hx. pose proof (I2 _ _ H _ _ Hi) as Ht. pose proof (G2 _ (I1 _ _ H)) as H2.
    destruct t as [[|r|] pc]; destruct pc as [|e| | | |par|par|par y| | | |m|m|m acc|m acc|acc]; unfold ob_step in Hx; cbn [ot_call ot_pc fst] in Hx; try (apply H2; exact Hx).
    - destruct (bool_decide (ob_head s = e)); apply H2; exact Hx.
    - destruct (bool_decide _); apply H2; exact Hx.
    - destruct (ob_mtx s); apply H2; exact Hx.
    - destruct (load_ptr s par) as [e|]; [destruct (Nat.eqb e r)|]; apply H2; exact Hx.
    - destruct (bool_decide (load_ptr s par = Some r)); [|apply H2; exact Hx].
      assert (Hr : r ∈ ob_pushed s) by (destruct par; apply Ht).
      destruct par; cbn in Hx; (apply elem_of_union in Hx as [Hx|Hx]; [apply elem_of_singleton in Hx; subst; exact Hr|apply H2, Hx]).
    - destruct (ob_head s); apply H2; exact Hx.
    - destruct (cdr_of s m); apply H2; exact Hx.
    - destruct (cdr_of s m); apply H2; exact Hx.
  Qed.

  Lemma snap_step ts i s t : oinv s ts -> ts !! i = Some t -> snap s -> snap (fst (ob_step i s t)).
  Proof.
    clear. intros H Hi (Hp & Hr & Hc & _). destruct (step_grows i s t) as [[Q EQ] Hu].
    pose proof (oinv_step _ _ _ _ H Hi) as H'.
    split; [intros x Hx; rewrite EQ; apply elem_of_app; left; apply Hp, Hx|]. split; [auto|]. split; [|auto].
    intros n m Hn Hnr Hm. rewrite EQ in Hn. apply elem_of_app in Hn as [Hn|Hn].
    - destruct (step_cdr _ _ _ _ H Hi n Hn) as [E|(r & E & Hrl & Hrp & E')].
      + apply (Hc n); congruence.
      + apply (Hc r); [exact Hrp|intros Hr0; apply Hrl, Hr, Hr0|congruence].
    - (* a new node: its cdr is the live head *)
      pose proof (G4 _ (I1 _ _ H') n) as H4. rewrite EQ in H4. specialize (H4 ltac:(set_solver)). rewrite Hm in H4.
      destruct H4 as (_ & _ & Hlive).
      assert (Hnl : n ∉ ob_unlinked (fst (ob_step i s t))).
      { intros Hx. apply (step_unlinked _ _ _ _ H Hi) in Hx. pose proof (G1 _ (I1 _ _ H')) as Hnd. rewrite EQ in Hnd.
        apply NoDup_app in Hnd as (_ & Hd & _). exact (Hd _ Hx Hn). }
      specialize (Hlive Hnl). intros Hm0. apply Hlive, Hu, Hr, Hm0.
  Qed.

  Lemma pass_exec post :
    let c := ob_exec (pre ++ post) in
    snap (shared c) /\ forall t, threads c !! p = Some t -> pass_ok (shared c) t.
  Proof.
    cbn. induction post as [|a post IH] using rev_ind.
    - rewrite app_nil_r. pose proof (oinv_exec pre) as H. split.
      + split; [auto|]. split; [auto|]. split; [|auto]. intros n m Hn Hnr Hm. pose proof (G4 _ (I1 _ _ H) _ Hn) as H4. rewrite Hm in H4. apply H4, Hnr.
      + intros t Ht. unfold pass_ok. rewrite (Hnb _ Ht). exact I.
    - rewrite app_assoc. pose proof (oinv_exec (pre ++ post)) as H. unfold ob_exec in *. destruct IH as [Hs Hk]. destruct a as [c|j].
      + rewrite exec_spawn. cbn. split; [exact Hs|]. intros t Ht. apply lookup_app_Some in Ht as [Ht|[_ Ht]]; [apply Hk, Ht|].
        destruct (p - _)%nat as [|k]; [|destruct k; discriminate Ht]. injection Ht as <-. destruct c; exact I.
      + destruct (threads (exec ob_start ob_step ob_new (pre ++ post)) !! j) as [u|] eqn:Eu.
        * rewrite (exec_run _ _ _ _ _ _ Eu). cbn. split; [eapply snap_step; eassumption|].
          intros t Ht. apply list_lookup_insert_Some in Ht as [(-> & <- & _)|[Hne Ht]].
          -- eapply pass_self; [exact H|exact Eu|exact Hs|apply Hk, Eu].
          -- eapply pass_grows; [exact H|exact Eu|apply Hk, Ht].
        * rewrite (exec_run_none _ _ _ _ _ Eu). auto.
  Qed.
End pass.

Lemma unlinked_only_by_cancel sched r : r ∈ ob_unlinked (shared (ob_exec sched)) -> cancel_called sched r.
Proof.
  unfold cancel_called. revert r. unfold ob_exec.
  apply (exec_inv ob_start ob_step (fun s ts => forall r, r ∈ ob_unlinked s ->
           exists c pc, ts !! c = Some (OThr (OCancel r) pc) /\ pc <> C_start)); clear sched.
  - intros r Hr. cbn in Hr. set_solver.
  - intros s ts a IH r Hr. destruct (IH _ Hr) as (c & pc & Hc & Hp). exists c, pc. split; [apply lookup_app_l_Some, Hc|exact Hp].
  - intros s ts i t IH Hi r Hr. assert (Hlt : (i < length ts)%nat) by (eapply lookup_lt_Some; exact Hi).
    assert (Hkeep : r ∈ ob_unlinked s -> exists c pc, <[i := snd (ob_step i s t)]> ts !! c = Some (OThr (OCancel r) pc) /\ pc <> C_start).
    { intros Hr'. destruct (IH _ Hr') as (c & pc & Hc & Hp). destruct (decide (c = i)) as [->|Hne].
      - assert (t = OThr (OCancel r) pc) by congruence. subst t.
        destruct (ob_step i s (OThr (OCancel r) pc)) as [s' t'] eqn:E. exists i. cbn [snd].
        assert (Hx : exists pc', t' = OThr (OCancel r) pc' /\ pc' <> C_start).
        { clear -E Hp. unfold ob_step in E. cbn [ot_call ot_pc] in E.
          destruct pc; repeat match type of E with context [match ?x with _ => _ end] => destruct x end;
            apply pair_equal_spec in E as [_ <-]; try congruence; eexists; (split; [reflexivity|congruence]). }
        destruct Hx as (pc' & -> & Hp'). exists pc'. split; [apply list_lookup_insert, Hlt|exact Hp'].
      - exists c, pc. rewrite list_lookup_insert_ne by congruence. auto. }
    assert (Hd : r ∈ ob_unlinked s \/ exists par x, t = OThr (OCancel r) (C_cas par x)).
    { clear -Hr. destruct t as [c pc]. unfold ob_step in Hr. cbn [ot_call ot_pc] in Hr.
      destruct c as [|r'|], pc; cbn in Hr; try (left; exact Hr);
        repeat match type of Hr with context [match ?x with _ => _ end] => destruct x end; cbn in Hr; try (left; exact Hr).
      all: destruct parent; cbn in Hr; (apply elem_of_union in Hr as [Hr|Hr]; [|left; exact Hr]); apply elem_of_singleton in Hr; subst; right; eauto. }
    destruct Hd as [Hd|(par & x & ->)]; [apply Hkeep, Hd|].
    unfold ob_step. cbn [ot_call ot_pc]. exists i. destruct (bool_decide _); cbn [snd];
      rewrite list_lookup_insert by exact Hlt; eexists; (split; [reflexivity|discriminate]).
Qed.

Lemma registered_pushed sched r : registered sched r <-> r ∈ ob_pushed (shared (ob_exec sched)).
Proof. symmetry. apply (I4 _ _ (oinv_exec sched)). Qed.
Lemma cancelled_unlinked sched r : cancelled sched r -> r ∈ ob_unlinked (shared (ob_exec sched)).
Proof. intros (c & Hc). exact (I2 _ _ (oinv_exec sched) _ _ Hc). Qed.
Lemma not_begun_nil p : not_begun [] p.
Proof. intros t H. discriminate H. Qed.

Lemma pushed_prefix sched more : exists Q, ob_pushed (shared (ob_exec (sched ++ more))) = ob_pushed (shared (ob_exec sched)) ++ Q.
Proof.
  induction more as [|a more [Q IH]] using rev_ind; [exists []; rewrite !app_nil_r; reflexivity|].
  rewrite app_assoc. unfold ob_exec in *. destruct a as [c|j].
  - rewrite exec_spawn. cbn. eauto.
  - destruct (threads (exec ob_start ob_step ob_new (sched ++ more)) !! j) as [u|] eqn:Eu.
    + rewrite (exec_run _ _ _ _ _ _ Eu). cbn. destruct (step_grows j (shared (exec ob_start ob_step ob_new (sched ++ more))) u) as [[Q' EQ] _].
      rewrite EQ, IH. exists (Q ++ Q'). rewrite app_assoc. reflexivity.
    + rewrite (exec_run_none _ _ _ _ _ Eu). eauto.
Qed.

(** [older] is "registered earlier". *)
Lemma older_registered sched a b : older (ob_pushed (shared (ob_exec sched))) a b <->
  registered_earlier sched a b /\ registered sched b.
Proof.
  split.
  - intros Ho. split; [|apply registered_pushed, (older_elem _ _ _ Ho)].
    induction sched as [|x sched IH] using rev_ind.
    + destruct Ho as (i & j & _ & Hi & _). discriminate Hi.
    + destruct (decide (a ∈ ob_pushed (shared (ob_exec sched)) /\ b ∉ ob_pushed (shared (ob_exec sched)))) as [[Ha Hb]|Hn].
      { exists sched, [x]. split; [reflexivity|]. rewrite !registered_pushed. auto. }
      assert (Ho' : older (ob_pushed (shared (ob_exec sched))) a b).
      { destruct (pushed_prefix sched [x]) as [Q EQ]. pose proof (G1 _ (I1 _ _ (oinv_exec (sched ++ [x])))) as Hnd.
        destruct (older_elem _ _ _ Ho) as [Ha Hb].
        assert (HQ : Q = [] \/ exists n, Q = [n]).
        { clear -EQ. unfold ob_exec in *. destruct x as [c|j].
          - rewrite exec_spawn in EQ. cbn in EQ. left. rewrite <- (app_nil_r (ob_pushed _)) in EQ at 1. apply app_inv_head in EQ. congruence.
          - destruct (threads (exec ob_start ob_step ob_new sched) !! j) as [u|] eqn:Eu.
            + rewrite (exec_run _ _ _ _ _ _ Eu) in EQ. cbn in EQ.
              assert (Hnil : forall l : list nat, l = l ++ Q -> Q = []).
              { intros l E. rewrite <- (app_nil_r l) in E at 1. apply app_inv_head in E. congruence. }
              destruct u as [[|r|] pc]; destruct pc as [|e| | | |par|par|par x| | | |q|q|q acc|q acc|acc]; unfold ob_step in EQ; cbn [ot_call ot_pc fst] in EQ; try (left; eapply Hnil; exact EQ);
                repeat match type of EQ with context [match ?x with _ => _ end] => destruct x end; cbn in EQ; try (left; eapply Hnil; exact EQ).
              { apply app_inv_head in EQ. eauto. }
              left; destruct par; eapply Hnil; exact EQ.
            + rewrite (exec_run_none _ _ _ _ _ Eu) in EQ. left. rewrite <- (app_nil_r (ob_pushed _)) in EQ at 1. apply app_inv_head in EQ. congruence. }
        destruct HQ as [->|[n ->]]; [rewrite app_nil_r in EQ; congruence|].
        rewrite EQ in *. apply older_snoc in Ho as [Ho|[-> Ha']]; [exact Ho| |].
        - exfalso. apply Hn. split; [exact Ha'|]. apply NoDup_app in Hnd as (_ & Hd & _). intros Hb'. apply (Hd n Hb'). set_solver.
        - apply NoDup_app in Hnd as (_ & Hd & _). intros Hb'. apply (Hd n Hb'). set_solver. }
      destruct (IH Ho') as (pre & post & -> & H1 & H2). exists pre, (post ++ [x]). rewrite app_assoc. auto.
  - intros [(pre & post & -> & Ha & Hb) Hb']. rewrite registered_pushed in *.
    destruct (pushed_prefix pre post) as [Q EQ]. rewrite EQ in *. apply elem_of_app in Hb' as [?|HQ]; [contradiction|].
    apply elem_of_list_lookup in Ha as [i Hi], HQ as [j Hj]. exists i, (length (ob_pushed (shared (ob_exec pre))) + j)%nat.
    split; [apply lookup_lt_Some in Hi; lia|]. split; [apply lookup_app_l_Some, Hi|].
    rewrite lookup_app_r by lia. replace (_ + j - _)%nat with j by lia. exact Hj.
Qed.

Lemma observers_spec sched p calls : pass_done sched p calls ->
  NoDup calls /\
  (forall i j a b, (i < j)%nat -> calls !! i = Some a -> calls !! j = Some b -> registered_earlier sched b a) /\
  (forall r, r ∈ calls -> registered sched r) /\
  (forall pre post r, sched = pre ++ post -> not_begun pre p -> registered pre r -> ~ cancel_called sched r -> r ∈ calls) /\
  (forall pre post r, sched = pre ++ post -> not_begun pre p -> cancelled pre r -> r ∉ calls).
Proof.
  intros Hd.
  assert (Hgen : forall pre post, sched = pre ++ post -> not_begun pre p -> over pre (shared (ob_exec sched)) calls).
  { intros pre post -> Hnb. destruct (pass_exec pre p Hnb post) as [_ Hk]. exact (Hk _ Hd). }
  destruct (Hgen [] sched eq_refl (not_begun_nil p)) as (H1 & H2 & _).
  pose proof (G1 _ (I1 _ _ (oinv_exec sched))) as Hnd.
  split; [|split; [|split; [|split]]].
  - apply NoDup_alt. intros i j x Hi Hj. destruct (lt_eq_lt_dec i j) as [[H| ->]|H]; [|reflexivity|].
    + exfalso. eapply older_irrefl; [exact Hnd|]. exact (H1 _ _ _ _ H Hi Hj).
    + exfalso. eapply older_irrefl; [exact Hnd|]. exact (H1 _ _ _ _ H Hj Hi).
  - intros i j a b Hij Ha Hb. apply older_registered. exact (H1 _ _ _ _ Hij Ha Hb).
  - intros r Hr. apply registered_pushed, H2, Hr.
  - intros pre post r E Hnb Hr Hc. destruct (Hgen _ _ E Hnb) as (_ & _ & H3). apply registered_pushed in Hr.
    destruct (H3 _ Hr) as [Hu|?]; [|assumption]. exfalso. apply Hc, unlinked_only_by_cancel, Hu.
  - intros pre post r E Hnb Hr Hc. destruct (Hgen _ _ E Hnb) as (_ & H3 & _). apply (proj1 (H3 _ Hc)), cancelled_unlinked, Hr.
Qed.

(** ** Trace watchers *)
Definition wreg (ts : list wthread) (r : nat) : Prop := exists ord acc, ts !! r = Some (WThr (WReg ord) (W_done acc)).
Definition wcanc (ts : list wthread) (r : nat) : Prop := exists c ord acc, ts !! c = Some (WThr (WCancel r ord) (W_done acc)).
Definition word (ts : list wthread) : Prop :=
  forall i t, ts !! i = Some t -> match wh_call t with WReg ord | WCancel _ ord => any_order ord | WTrace => True end.
Record winv (s : watch) (ts : list wthread) : Prop := {
  W1 : forall r c, wt_ids s !! r = Some c -> (c < wt_counter s)%Z;
  W2 : forall r r' c, wt_ids s !! r = Some c -> wt_ids s !! r' = Some c -> r = r';
  W3 : forall r, is_Some (wt_ids s !! r) <-> wreg ts r;
  W4 : forall c r, wt_table s !! c = Some r <-> wt_ids s !! r = Some c /\ ~ wcanc ts r;
  W5 : forall r, wcanc ts r -> wreg ts r;
  W6 : Permutation (wt_current s) (map snd (map_to_list (wt_table s)));
  W7 : forall i t todo acc, ts !! i = Some t -> wh_pc t = W_call todo acc -> wh_call t = WTrace
}.

Lemma wt_step_call i s t : wh_call (snd (wt_step i s t)) = wh_call t.
Proof.
  destruct t as [c [|[|cb todo] acc|acc]]; try reflexivity.
  destruct c as [ord|r ord|]; try reflexivity. cbn. destruct (wt_ids s !! r); reflexivity.
Qed.
Lemma word_spawn ts c : word (ts ++ [wt_start c]) -> word ts.
Proof. intros H i t Ht. apply (H i t). apply lookup_app_l_Some, Ht. Qed.
Lemma word_step i s ts t : ts !! i = Some t -> word (<[i := snd (wt_step i s t)]> ts) -> word ts.
Proof.
  intros Hi H j u Hu. destruct (decide (j = i)) as [->|Hne].
  - assert (u = t) by congruence. subst u. specialize (H i (snd (wt_step i s t))). rewrite list_lookup_insert in H by (eapply lookup_lt_Some; exact Hi).
    specialize (H eq_refl). rewrite wt_step_call in H. exact H.
  - apply (H j u). rewrite list_lookup_insert_ne by congruence. exact Hu.
Qed.

Lemma lookup_snoc_inv {A} (l : list A) x i y : (l ++ [x]) !! i = Some y -> l !! i = Some y \/ (i = length l /\ y = x).
Proof.
  intros Hi. apply lookup_app_Some in Hi as [Hi|[Hl Hi]]; [auto|]. right.
  destruct (i - length l)%nat as [|n] eqn:E; [|destruct n; discriminate Hi]. split; [lia|]. cbn in Hi. congruence.
Qed.
Lemma wreg_spawn ts c r : wreg (ts ++ [wt_start c]) r <-> wreg ts r.
Proof.
  split; intros (ord & acc & H).
  - apply lookup_snoc_inv in H as [H|[_ H]]; [exists ord, acc; exact H|]. discriminate H.
  - exists ord, acc. apply lookup_app_l_Some, H.
Qed.
Lemma wcanc_spawn ts c r : wcanc (ts ++ [wt_start c]) r <-> wcanc ts r.
Proof.
  split; intros (i & ord & acc & H).
  - apply lookup_snoc_inv in H as [H|[_ H]]; [exists i, ord, acc; exact H|]. discriminate H.
  - exists i, ord, acc. apply lookup_app_l_Some, H.
Qed.
(** Effect of one thread's change on the two sets. *)
Lemma wreg_insert ts i t r : (i < length ts)%nat ->
  wreg (<[i := t]> ts) r <-> (r = i /\ exists ord acc, t = WThr (WReg ord) (W_done acc)) \/ (r <> i /\ wreg ts r).
Proof.
  intros Hl. split.
  - intros (ord & acc & H). apply list_lookup_insert_Some in H as [(-> & H & _)|[Hne H]]; [left; split; [reflexivity|]; eauto|].
    right. split; [congruence|]. exists ord, acc. exact H.
  - intros [(-> & ord & acc & ->)|[Hne (ord & acc & H)]]; exists ord, acc.
    + apply list_lookup_insert, Hl.
    + rewrite list_lookup_insert_ne by congruence. exact H.
Qed.
Lemma wcanc_insert_keep ts i t t' r : ts !! i = Some t -> (forall r ord acc, t = WThr (WCancel r ord) (W_done acc) -> t' = t) ->
  wcanc ts r -> wcanc (<[i := t']> ts) r.
Proof.
  intros Hi Hk (c & ord & acc & H). exists c, ord, acc. destruct (decide (c = i)) as [->|Hne].
  - assert (t = WThr (WCancel r ord) (W_done acc)) by congruence. rewrite list_lookup_insert by (eapply lookup_lt_Some; exact Hi).
    rewrite (Hk _ _ _ H0). congruence.
  - rewrite list_lookup_insert_ne by congruence. exact H.
Qed.
Lemma wcanc_insert_inv ts i t' r : wcanc (<[i := t']> ts) r -> wcanc ts r \/ exists ord acc, t' = WThr (WCancel r ord) (W_done acc).
Proof.
  intros (c & ord & acc & H). apply list_lookup_insert_Some in H as [(-> & H & _)|[Hne H]]; [right; eauto|]. left. exists c, ord, acc. exact H.
Qed.

(** A step that changes nothing registered. *)
Lemma winv_quiet s ts i t t' : winv s ts -> ts !! i = Some t -> wh_call t' = WTrace ->
  (forall r, wreg (<[i := t']> ts) r <-> wreg ts r) -> (forall r, wcanc (<[i := t']> ts) r <-> wcanc ts r) ->
  winv s (<[i := t']> ts).
Proof.
  intros [H1 H2 H3 H4 H5 H6 H7] Hi Ht Hr Hc. constructor; auto.
  - intros r. rewrite Hr. apply H3.
  - intros c r. rewrite Hc. apply H4.
  - intros r. rewrite Hr, Hc. apply H5.
  - intros j u x a Hj E. apply list_lookup_insert_Some in Hj as [(_ & <- & _)|[_ Hj]]; [exact Ht|eapply H7; eassumption].
Qed.

Lemma winv_trace s ts i t t' : winv s ts -> ts !! i = Some t -> wh_call t = WTrace -> wh_call t' = WTrace -> winv s (<[i := t']> ts).
Proof.
  intros H Hi Ht Ht'. assert (Hlt : (i < length ts)%nat) by (eapply lookup_lt_Some; exact Hi).
  apply (winv_quiet _ _ _ _ _ H Hi Ht').
  - intros x. rewrite (wreg_insert _ _ _ _ Hlt). split.
    + intros [(_ & o & a & ->)|[_ Hx]]; [discriminate Ht'|exact Hx].
    + intros Hx. right. split; [|exact Hx]. intros ->. destruct Hx as (o & a & Hx). assert (t = WThr (WReg o) (W_done a)) by congruence. subst t. discriminate Ht.
  - intros x. split; [intros Hc; apply wcanc_insert_inv in Hc as [Hc|(o & a & ->)]; [exact Hc|discriminate Ht']|].
    apply (wcanc_insert_keep _ _ _ _ _ Hi). intros r o a ->. discriminate Ht.
Qed.
Lemma wcanc_dec ts r : wcanc ts r \/ ~ wcanc ts r.
Proof.
  set (f := fun t => match t with WThr (WCancel r' _) (W_done _) => bool_decide (r' = r) | _ => false end).
  destruct (existsb f ts) eqn:E.
  - left. apply existsb_exists in E as (t & Hin & Hf). apply elem_of_list_In, elem_of_list_lookup in Hin as [c Hc].
    destruct t as [[o|r' o|] [|todo acc|acc]]; try discriminate Hf. apply bool_decide_eq_true in Hf. subst. exists c, o, acc. exact Hc.
  - right. intros (c & o & acc & Hc). apply not_true_iff_false in E. apply E. apply existsb_exists. eexists. split; [apply elem_of_list_In; eapply elem_of_list_lookup_2; exact Hc|].
    cbn. apply bool_decide_eq_true. reflexivity.
Qed.

Lemma winv_exec sched : word (threads (wt_exec sched)) -> winv (shared (wt_exec sched)) (threads (wt_exec sched)).
Proof.
  apply (exec_inv wt_start wt_step (fun s ts => word ts -> winv s ts)); clear sched.
  - intros _. constructor; cbn.
    + intros r c H. rewrite lookup_empty in H. discriminate H.
    + intros r r' c H. rewrite lookup_empty in H. discriminate H.
    + intros r. rewrite lookup_empty. split; [intros [? ?]; discriminate|]. intros (ord & acc & H). discriminate H.
    + intros c r. rewrite !lookup_empty. split; [discriminate|]. intros [H _]. discriminate H.
    + intros r (c & ord & acc & H). discriminate H.
    + rewrite map_to_list_empty. constructor.
    + intros i t todo acc H. discriminate H.
  - intros s ts c IH Ho. destruct (IH (word_spawn _ _ Ho)) as [H1 H2 H3 H4 H5 H6 H7]. constructor; auto.
    + intros r. rewrite wreg_spawn. apply H3.
    + intros k r. rewrite wcanc_spawn. apply H4.
    + intros r. rewrite wreg_spawn, wcanc_spawn. apply H5.
    + intros j u x a Hj E. apply lookup_snoc_inv in Hj as [Hj|[_ ->]]; [eapply H7; eassumption|discriminate E].
  - intros s ts i t IH Hi Ho. pose proof (IH (word_step _ _ _ _ Hi Ho)) as H. pose proof (word_step _ _ _ _ Hi Ho) as Hoo.
    assert (Hlt : (i < length ts)%nat) by (eapply lookup_lt_Some; exact Hi).
    assert (Hself : <[i := t]> ts = ts) by (apply list_insert_id, Hi).
    destruct t as [c pc]. specialize (Hoo _ _ Hi) as Hord. unfold wt_step. cbn [wh_pc wh_call] in *.
    destruct pc as [|[|cb todo] acc|acc]; cbn [fst snd].
    + destruct c as [ord|r ord|]; cbn [fst snd].
      * (* registration *)
        destruct H as [H1 H2 H3 H4 H5 H6 H7].
        assert (Hfresh : wt_ids s !! i = None).
        { destruct (wt_ids s !! i) eqn:E; [|reflexivity]. destruct (proj1 (H3 i) ltac:(eauto)) as (o & a & Hx). congruence. }
        assert (Hnc : ~ wcanc ts i).
        { intros Hc. destruct (H5 _ Hc) as (o & a & Hx). congruence. }
        assert (Hwc : forall r, wcanc (<[i := WThr (WReg ord) (W_done [])]> ts) r <-> wcanc ts r).
        { intros r. split; [intros Hc; apply wcanc_insert_inv in Hc as [Hc|(o & a & Hc)]; [exact Hc|discriminate Hc]|].
          apply (wcanc_insert_keep _ _ _ _ _ Hi). intros ? ? ? E. discriminate E. }
        constructor; cbn [update_watcher wt_counter wt_table wt_current wt_ids].
        -- intros r c Hr. apply lookup_insert_Some in Hr as [[<- <-]|[_ Hr]]; [lia|]. specialize (H1 _ _ Hr). lia.
        -- intros r r' c Hr Hr'. apply lookup_insert_Some in Hr as [[<- <-]|[Hn Hr]]; apply lookup_insert_Some in Hr' as [[<- E]|[Hn' Hr']]; auto.
           ++ specialize (H1 _ _ Hr'). lia.
           ++ subst c. specialize (H1 _ _ Hr). lia.
           ++ eapply H2; eassumption.
        -- intros r. rewrite (wreg_insert _ _ _ _ Hlt). destruct (decide (r = i)) as [->|Hne].
           ++ rewrite lookup_insert. split; [intros _; left; split; [reflexivity|]; eauto|eauto].
           ++ rewrite lookup_insert_ne by congruence. rewrite H3. tauto.
        -- intros c r. rewrite Hwc. split.
           ++ intros Hr. apply lookup_insert_Some in Hr as [[<- <-]|[Hn Hr]]; [rewrite lookup_insert; auto|].
              apply H4 in Hr as [Hr Hc]. split; [|exact Hc]. rewrite lookup_insert_ne; [exact Hr|]. intros ->. congruence.
           ++ intros [Hr Hc]. apply lookup_insert_Some in Hr as [[<- <-]|[Hn Hr]]; [apply lookup_insert|].
              rewrite lookup_insert_ne; [apply H4; auto|]. specialize (H1 _ _ Hr). lia.
        -- intros r. rewrite Hwc, (wreg_insert _ _ _ _ Hlt). intros Hc. right. split; [intros ->; contradiction|apply H5, Hc].
        -- apply Hord.
        -- intros j u x a Hj E. apply list_lookup_insert_Some in Hj as [(_ & <- & _)|[_ Hj]]; [discriminate E|eapply H7; eassumption].
      * (* cancel *)
        destruct (wt_ids s !! r) as [cid|] eqn:Er; cbn [fst snd]; [|rewrite Hself; exact H].
        destruct H as [H1 H2 H3 H4 H5 H6 H7].
        assert (Hwr : forall x, wreg (<[i := WThr (WCancel r ord) (W_done [])]> ts) x <-> wreg ts x).
        { intros x. rewrite (wreg_insert _ _ _ _ Hlt). split.
          - intros [(_ & o & a & E)|[_ Hx]]; [discriminate E|exact Hx].
          - intros Hx. right. split; [|exact Hx]. intros ->. destruct Hx as (o & a & Hx). congruence. }
        assert (Hwc : forall x, wcanc (<[i := WThr (WCancel r ord) (W_done [])]> ts) x <-> x = r \/ wcanc ts x).
        { intros x. split; [intros Hc; apply wcanc_insert_inv in Hc as [Hc|(o & a & Hc)]; [auto|left; congruence]|].
          intros [->|Hx].
          - exists i, ord, []. apply list_lookup_insert, Hlt.
          - apply (wcanc_insert_keep _ _ _ _ _ Hi); [|exact Hx]. intros ? ? ? E. discriminate E. }
        constructor; cbn [update_watcher wt_counter wt_table wt_current wt_ids]; auto.
        -- intros x. rewrite Hwr. apply H3.
        -- intros c x. rewrite Hwc. split.
           ++ intros Hx. apply lookup_delete_Some in Hx as [Hn Hx]. apply H4 in Hx as [Hx Hc]. split; [exact Hx|].
              intros [->|?]; [|contradiction]. congruence.
           ++ intros [Hx Hc]. rewrite lookup_delete_ne; [apply H4; tauto|]. intros <-. apply Hc. left. eapply H2; eassumption.
        -- intros x. rewrite Hwr, Hwc. intros [->|Hx]; [apply H3; eauto|apply H5, Hx].
        -- intros j u x a Hj E. apply list_lookup_insert_Some in Hj as [(_ & <- & _)|[_ Hj]]; [discriminate E|eapply H7; eassumption].
      * apply (winv_trace _ _ _ _ _ H Hi); reflexivity.
    + assert (c = WTrace) as -> by exact (W7 _ _ H _ _ _ _ Hi eq_refl). apply (winv_trace _ _ _ _ _ H Hi); reflexivity.
    + assert (c = WTrace) as -> by exact (W7 _ _ H _ _ _ _ Hi eq_refl). apply (winv_trace _ _ _ _ _ H Hi); reflexivity.
    + rewrite Hself. exact H.
Qed.

(** One observeTrace, seen from a moment before it began. *)
Section wpass.
  Context (pre : list (action wcall)) (p : nat) (Hnb : w_not_begun pre p).
  Definition wlist (ts : list wthread) (l : list nat) : Prop :=
    NoDup l /\ (forall x, x ∈ l -> wreg ts x /\ ~ w_cancelled pre x) /\
    (forall x, w_registered pre x -> x ∈ l \/ wcanc ts x).
  Definition wpass_ok (ts : list wthread) (t : wthread) : Prop :=
    match wh_call t, wh_pc t with
    | WTrace, W_call todo acc => wlist ts (acc ++ todo)
    | WTrace, W_done acc => wlist ts acc
    | _, _ => True
    end.

  Lemma wkeep i s ts t : ts !! i = Some t ->
    (forall x, wreg ts x -> wreg (<[i := snd (wt_step i s t)]> ts) x) /\
    (forall x, wcanc ts x -> wcanc (<[i := snd (wt_step i s t)]> ts) x).
  Proof.
    intros Hi. assert (Hlt : (i < length ts)%nat) by (eapply lookup_lt_Some; exact Hi). split; intros x Hx.
    - apply (wreg_insert _ _ _ _ Hlt). destruct (decide (x = i)) as [->|Hne]; [|auto]. left. split; [reflexivity|].
      destruct Hx as (o & a & Hx). assert (t = WThr (WReg o) (W_done a)) by congruence. subst t. cbn. eauto.
    - apply (wcanc_insert_keep _ _ _ _ _ Hi); [|exact Hx]. intros r o a ->. reflexivity.
  Qed.
  Lemma wlist_keep ts ts' l : (forall x, wreg ts x -> wreg ts' x) -> (forall x, wcanc ts x -> wcanc ts' x) -> wlist ts l -> wlist ts' l.
  Proof.
    intros Hr Hc (H1 & H2 & H3). split; [exact H1|]. split.
    - intros x Hx. split; [apply Hr, H2, Hx|apply H2, Hx].
    - intros x Hx. destruct (H3 _ Hx); auto.
  Qed.
  Lemma wpass_keep ts ts' u : (forall x, wreg ts x -> wreg ts' x) -> (forall x, wcanc ts x -> wcanc ts' x) -> wpass_ok ts u -> wpass_ok ts' u.
  Proof.
    intros Hr Hc. destruct u as [[o|r o|] [|todo acc|acc]]; unfold wpass_ok; cbn; auto; apply wlist_keep; assumption.
  Qed.

  Lemma wpass_exec post : let c := wt_exec (pre ++ post) in
    word (threads c) ->
    (forall x, w_registered pre x -> wreg (threads c) x) /\ (forall x, w_cancelled pre x -> wcanc (threads c) x) /\
    forall t, threads c !! p = Some t -> wpass_ok (threads c) t.
  Proof.
    cbn. induction post as [|a post IH] using rev_ind; intros Ho.
    - rewrite app_nil_r in *. split; [auto|]. split; [auto|]. intros t Ht. unfold wpass_ok. rewrite (Hnb _ Ht). destruct (wh_call t); exact I.
    - rewrite app_assoc in *. unfold wt_exec in *. destruct a as [c|j].
      + rewrite exec_spawn in *. cbn in *. apply word_spawn in Ho. destruct (IH Ho) as (H1 & H2 & H3).
        split; [intros x Hx; apply wreg_spawn, H1, Hx|]. split; [intros x Hx; apply wcanc_spawn, H2, Hx|].
        intros t Ht. apply lookup_snoc_inv in Ht as [Ht|[_ ->]].
        * eapply wpass_keep; [| |apply H3, Ht]; intros x Hx; [apply wreg_spawn, Hx|apply wcanc_spawn, Hx].
        * destruct c; exact I.
      + destruct (threads (exec wt_start wt_step wt_new (pre ++ post)) !! j) as [u|] eqn:Eu.
        2: { rewrite (exec_run_none _ _ _ _ _ Eu) in *. auto. }
        rewrite (exec_run _ _ _ _ _ _ Eu) in *. cbn in *. pose proof (word_step _ _ _ _ Eu Ho) as Ho'.
        destruct (IH Ho') as (H1 & H2 & H3). pose proof (winv_exec (pre ++ post) Ho') as Hw. unfold wt_exec in Hw.
        set (s := shared (exec wt_start wt_step wt_new (pre ++ post))) in *. set (ts := threads (exec wt_start wt_step wt_new (pre ++ post))) in *.
        destruct (wkeep j s ts u Eu) as [Hkr Hkc].
        split; [auto|]. split; [auto|]. intros t Ht. apply list_lookup_insert_Some in Ht as [(-> & <- & _)|[Hne Ht]].
        2: { eapply wpass_keep; [exact Hkr|exact Hkc|apply H3, Ht]. }
        specialize (H3 _ Eu). eapply wpass_keep; [exact Hkr|exact Hkc|].
        destruct u as [c pc]. unfold wt_step. cbn [wh_pc wh_call]. destruct pc as [|[|cb todo] acc|acc]; cbn [snd].
        * destruct c as [o|r o|]; [exact I|destruct (wt_ids s !! r); exact I|]. cbn [snd]. unfold wpass_ok; cbn [wh_call wh_pc app].
          assert (Hmem : forall x, x ∈ wt_current s <-> wreg ts x /\ ~ wcanc ts x).
          { intros x. rewrite (W6 _ _ Hw). rewrite <- (W3 _ _ Hw). split.
            - intros Hx. apply elem_of_list_fmap in Hx as ([c y] & -> & Hx). apply elem_of_map_to_list, (W4 _ _ Hw) in Hx. cbn. split; [|apply Hx]. eexists; apply Hx.
            - intros [[c Hx] Hc]. apply elem_of_list_fmap. exists (c, x). split; [reflexivity|]. apply elem_of_map_to_list, (W4 _ _ Hw). auto. }
          split; [|split].
          -- rewrite (W6 _ _ Hw). apply NoDup_alt. intros a b x Ha Hb.
             rewrite list_lookup_fmap in Ha. rewrite list_lookup_fmap in Hb.
             destruct (map_to_list (wt_table s) !! a) as [[ca xa]|] eqn:Ea; [|discriminate Ha].
             destruct (map_to_list (wt_table s) !! b) as [[cb xb]|] eqn:Eb; [|discriminate Hb].
             cbn in Ha, Hb. injection Ha as ->. injection Hb as ->.
             pose proof (elem_of_list_lookup_2 _ _ _ Ea) as Ma. pose proof (elem_of_list_lookup_2 _ _ _ Eb) as Mb.
             apply elem_of_map_to_list, (W4 _ _ Hw) in Ma as [Ma _], Mb as [Mb _]. assert (ca = cb) by congruence. subst cb.
             eapply NoDup_lookup; [apply (NoDup_map_to_list (wt_table s))|exact Ea|exact Eb].
          -- intros x Hx. apply Hmem in Hx as [Hx Hc]. split; [exact Hx|]. intros Hc'. apply Hc, H2, Hc'.
          -- intros x Hx. destruct (decide (x ∈ wt_current s)) as [?|Hn]; [auto|]. right.
             destruct (wt_ids s !! x) as [c|] eqn:Ec.
             2: { destruct (proj2 (W3 _ _ Hw x) (H1 _ Hx)) as [c Hc]. congruence. }
             destruct (decide (wt_table s !! c = Some x)) as [Hin|Hout].
             ++ exfalso. apply Hn, Hmem. split; [apply H1, Hx|]. apply (proj1 (W4 _ _ Hw _ _) Hin).
             ++ destruct (wcanc_dec ts x) as [?|Hnc]; [assumption|]. exfalso. apply Hout, (W4 _ _ Hw). auto.
        * destruct c; try exact I. unfold wpass_ok in *. cbn in *. rewrite app_nil_r in H3. exact H3.
        * destruct c; try exact I. unfold wpass_ok in *. cbn in *. rewrite <- app_assoc. exact H3.
        * destruct c; exact H3.
  Qed.
End wpass.

Lemma watchers_spec sched p calls : w_orders sched -> w_done sched p calls ->
  NoDup calls /\
  (forall r, r ∈ calls -> w_registered sched r) /\
  (forall pre post r, sched = pre ++ post -> w_not_begun pre p -> w_registered pre r -> ~ w_cancelled sched r -> r ∈ calls) /\
  (forall pre post r, sched = pre ++ post -> w_not_begun pre p -> w_cancelled pre r -> r ∉ calls).
Proof.
  intros Ho Hd.
  assert (Hgen : forall pre post, sched = pre ++ post -> w_not_begun pre p -> wlist pre (threads (wt_exec sched)) calls).
  { intros pre post -> Hnb. destruct (wpass_exec pre p Hnb post Ho) as (_ & _ & H). exact (H _ Hd). }
  destruct (Hgen [] sched eq_refl) as (H1 & H2 & _). { intros t Ht. discriminate Ht. }
  split; [exact H1|]. split; [intros r Hr; apply H2, Hr|]. split.
  - intros pre post r E Hnb Hr Hc. destruct (Hgen _ _ E Hnb) as (_ & _ & H3). destruct (H3 _ Hr); [assumption|contradiction].
  - intros pre post r E Hnb Hr Hc. destruct (Hgen _ _ E Hnb) as (_ & H3 & _). exact (proj2 (H3 _ Hc) Hr).
Qed.

(** What a trace started now would be passed to. *)
Lemma watchers_now sched : w_orders sched ->
  NoDup (wt_current (shared (wt_exec sched))) /\
  forall r, r ∈ wt_current (shared (wt_exec sched)) <-> w_registered sched r /\ ~ w_cancelled sched r.
Proof.
  intros Ho. pose proof (winv_exec sched Ho) as Hw. set (p := length (threads (wt_exec sched))).
  split.
  - rewrite (W6 _ _ Hw). apply NoDup_alt. intros a b x Ha Hb.
    rewrite list_lookup_fmap in Ha. rewrite list_lookup_fmap in Hb.
    destruct (map_to_list _ !! a) as [[ca xa]|] eqn:Ea; [|discriminate Ha].
    destruct (map_to_list _ !! b) as [[cb xb]|] eqn:Eb; [|discriminate Hb].
    cbn in Ha, Hb. injection Ha as ->. injection Hb as ->.
    pose proof (elem_of_list_lookup_2 _ _ _ Ea) as Ma. pose proof (elem_of_list_lookup_2 _ _ _ Eb) as Mb.
    apply elem_of_map_to_list, (W4 _ _ Hw) in Ma as [Ma _], Mb as [Mb _]. assert (ca = cb) by congruence. subst cb.
    eapply NoDup_lookup; [apply (NoDup_map_to_list (wt_table (shared (wt_exec sched))))|exact Ea|exact Eb].
  - intros x. rewrite (W6 _ _ Hw). unfold w_registered, w_cancelled. change (x ∈ map snd (map_to_list (wt_table (shared (wt_exec sched)))) <-> wreg (threads (wt_exec sched)) x /\ ~ wcanc (threads (wt_exec sched)) x).
    rewrite <- (W3 _ _ Hw). split.
    + intros Hx. apply elem_of_list_fmap in Hx as ([c y] & -> & Hx). apply elem_of_map_to_list, (W4 _ _ Hw) in Hx. cbn. split; [|apply Hx]. eexists; apply Hx.
    + intros [[c Hx] Hc]. apply elem_of_list_fmap. exists (c, x). split; [reflexivity|]. apply elem_of_map_to_list, (W4 _ _ Hw). auto.
Qed.
