(** Potential arguments for the retry loops. *)
From Verif Require Import Base Conc FuncStatsModel ObserverModel ObserverSpec ObserverProofs ProgressSpec.
Local Open Scope nat_scope.

Lemma steps_snoc_run {A} i (l : list (action A)) : steps_of i (l ++ [Run i]) = S (steps_of i l).
Proof. unfold steps_of. rewrite List.filter_app. cbn. rewrite Nat.eqb_refl, app_length. cbn. lia. Qed.
Lemma steps_snoc_other {A} i (l : list (action A)) a : is_run i a = false -> steps_of i (l ++ [a]) = steps_of i l.
Proof. intros H. unfold steps_of. rewrite List.filter_app. cbn. rewrite H, app_length. cbn. lia. Qed.

(** ** Observers *)

(** How one step of the schedule looks from thread [i]. *)
Lemma ob_view pre (a : action ocall) i t :
  threads (ob_exec pre) !! i = Some t ->
  (a = Run i /\ shared (ob_exec (pre ++ [a])) = fst (ob_step i (shared (ob_exec pre)) t) /\
   threads (ob_exec (pre ++ [a])) !! i = Some (snd (ob_step i (shared (ob_exec pre)) t))) \/
  (is_run i a = false /\ threads (ob_exec (pre ++ [a])) !! i = Some t /\
   (shared (ob_exec (pre ++ [a])) = shared (ob_exec pre) \/
    exists j u, j <> i /\ threads (ob_exec pre) !! j = Some u /\ shared (ob_exec (pre ++ [a])) = fst (ob_step j (shared (ob_exec pre)) u))).
Proof.
  intros Hi. unfold ob_exec. destruct a as [c|j].
  - right. rewrite exec_spawn. cbn [shared threads]. split; [reflexivity|]. split; [apply lookup_app_l_Some, Hi|]. left. reflexivity.
  - destruct (decide (j = i)) as [->|Hne].
    + left. unfold ob_exec in Hi. rewrite (exec_run _ _ _ _ _ _ Hi). cbn [shared threads]. split; [reflexivity|]. split; [reflexivity|].
      apply list_lookup_insert. eapply lookup_lt_Some; exact Hi.
    + right. split; [cbn; apply Nat.eqb_neq; congruence|].
      destruct (threads (exec ob_start ob_step ob_new pre) !! j) as [u|] eqn:Ej.
      * rewrite (exec_run _ _ _ _ _ _ Ej). cbn [shared threads]. split.
        -- rewrite list_lookup_insert_ne by congruence. exact Hi.
        -- right. exists j, u. split; [exact Hne|]. split; [exact Ej|reflexivity].
      * rewrite (exec_run_none _ _ _ _ _ Ej). split; [exact Hi|]. left. reflexivity.
Qed.

Definition changes (s : obs) : nat := length (ob_pushed s) + size (ob_unlinked s).

Lemma step_changes s ts i t : oinv s ts -> ts !! i = Some t ->
  let s' := fst (ob_step i s t) in
  length (ob_pushed s) <= length (ob_pushed s') /\ size (ob_unlinked s) <= size (ob_unlinked s') /\
  (ob_head s' = ob_head s \/ S (changes s) <= changes s').
Proof.
  intros H Hi. pose proof (I2 _ _ H _ _ Hi) as Ht. pose proof (I1 _ _ H) as Hg. unfold changes.
  destruct t as [[|r|] pc]; destruct pc as [|e| | | |par|par|par x| | | |n|n|n acc|n acc|acc]; unfold ob_step; cbn [ot_call ot_pc fst]; auto.
  - destruct (bool_decide _); cbn; rewrite ?app_length; cbn; [|auto]. split; [lia|]. split; [lia|]. right. lia.
  - destruct (bool_decide _); auto.
  - destruct (ob_mtx s); cbn; auto.
  - destruct (load_ptr s par) as [e|]; [destruct (Nat.eqb e r)|]; auto.
  - destruct (bool_decide (load_ptr s par = Some r)) eqn:E; cbn; [|auto]. apply bool_decide_eq_true in E.
    assert (Hrp : r ∈ ob_pushed s) by (destruct par; apply Ht).
    destruct (ginv_unlink s r par Hg Hrp E) as [_ Hlive].
    { destruct par as [n|]; [|exact I]. destruct Ht as (_ & Hn & Hnl & _). auto. }
    assert (Hs : size ({[r]} ∪ ob_unlinked s) = S (size (ob_unlinked s))).
    { rewrite size_union by set_solver. rewrite size_singleton. lia. }
    destruct par; cbn; rewrite Hs; split_and!; try lia; right; lia.
  - destruct (ob_head s) eqn:E; cbn; auto.
  - destruct (cdr_of s n); auto.
  - destruct (cdr_of s n); auto.
Qed.

Lemma mono_exec pre post :
  length (ob_pushed (shared (ob_exec pre))) <= length (ob_pushed (shared (ob_exec (pre ++ post)))) /\
  size (ob_unlinked (shared (ob_exec pre))) <= size (ob_unlinked (shared (ob_exec (pre ++ post)))).
Proof.
  induction post as [|a post IH] using rev_ind; [rewrite app_nil_r; lia|].
  rewrite app_assoc. set (h := pre ++ post) in *. pose proof (oinv_exec h) as Hinv. unfold ob_exec in *. destruct a as [c|j].
  - rewrite exec_spawn. exact IH.
  - destruct (threads (exec ob_start ob_step ob_new h) !! j) as [u|] eqn:Ej; [|rewrite (exec_run_none _ _ _ _ _ Ej); exact IH].
    rewrite (exec_run _ _ _ _ _ _ Ej). cbn [shared]. destruct (step_changes _ _ _ _ Hinv Ej) as (H1 & H2 & _). lia.
Qed.

Section register.
  Context (pre : list (action ocall)) (i : nat) (Hst : threads (ob_exec pre) !! i = Some (ob_start OReg)).

  Definition reg_ok (post : list (action ocall)) (t : othread) : Prop :=
    let s := shared (ob_exec (pre ++ post)) in
    let c0 := changes (shared (ob_exec pre)) in
    ot_call t = OReg /\ c0 <= changes s /\
    match ot_pc t with
    | R_load => steps_of i post + 2 * c0 <= 2 * changes s
    | R_cas e => steps_of i post + 2 * c0 <= 2 * changes s + 1 /\
                 (ob_head s <> e -> steps_of i post + 1 + 2 * c0 <= 2 * changes s)
    | R_done => True
    | _ => False
    end.

  Lemma reg_inv post : exists t, threads (ob_exec (pre ++ post)) !! i = Some t /\ reg_ok post t.
  Proof using Hst.
    induction post as [|a post IH] using rev_ind.
    - rewrite app_nil_r. exists (ob_start OReg). split; [exact Hst|]. unfold reg_ok. rewrite app_nil_r. cbn.
      split; [reflexivity|]. split; [lia|]. cbn. lia.
    - destruct IH as (t & Ht & Hc & Hge & Hpc). rewrite app_assoc. unfold reg_ok. rewrite app_assoc.
      set (h := pre ++ post) in *. pose proof (oinv_exec h) as Hinv.
      destruct (ob_view h a i t Ht) as [(-> & Es & Et)|(Ha & Et & Es)].
      + exists (snd (ob_step i (shared (ob_exec h)) t)). split; [exact Et|]. rewrite steps_snoc_run.
        pose proof (step_changes _ _ _ _ Hinv Ht) as Hsc. cbn zeta in Hsc. rewrite <- Es in Hsc.
        set (s' := shared (ob_exec (h ++ [Run i]))) in *. set (s := shared (ob_exec h)) in *.
        set (c0 := changes (shared (ob_exec pre))) in *.
        assert (Hm : changes s <= changes s') by (unfold changes; lia).
        destruct t as [c pc]. cbn [ot_call ot_pc] in *. subst c. unfold ob_step in *. cbn [ot_call ot_pc] in *.
        destruct pc; try contradiction; cbn [snd fst ot_call ot_pc] in *.
        * subst s'. rewrite Es. split_and!; [reflexivity|lia|lia|]. intros Hn. exfalso. apply Hn. reflexivity.
        * destruct (bool_decide (ob_head s = existing)) eqn:E; cbn [snd fst ot_call ot_pc] in *.
          -- split_and!; [reflexivity|lia|exact I].
          -- apply bool_decide_eq_false in E. subst s'. rewrite Es. destruct Hpc as [_ Hpc]. specialize (Hpc E). split_and!; [reflexivity|lia|lia].
        * split_and!; [reflexivity|lia|exact I].
      + exists t. split; [exact Et|]. rewrite (steps_snoc_other _ _ _ Ha).
        set (s' := shared (ob_exec (h ++ [a]))) in *. set (s := shared (ob_exec h)) in *.
        set (c0 := changes (shared (ob_exec pre))) in *.
        assert (Hm : changes s <= changes s' /\ (ob_head s' = ob_head s \/ S (changes s) <= changes s')).
        { destruct Es as [->|(j & u & _ & Hu & ->)]; [auto|].
          destruct (step_changes _ _ _ _ Hinv Hu) as (H1 & H2 & H3). fold s in H1, H2, H3. split; [unfold changes; lia|exact H3]. }
        destruct Hm as [Hm Hh]. split; [exact Hc|]. split; [lia|].
        destruct (ot_pc t); try contradiction; [lia| |exact I].
        destruct Hpc as [H1 H2]. split; [lia|]. intros Hne. destruct Hh as [Hh|Hh]; [|lia]. rewrite Hh in Hne. specialize (H2 Hne). lia.
  Qed.

  Lemma register_progress post :
    registered (pre ++ post) i \/
    steps_of i post <= 2 * ((added (pre ++ post) - added pre) + (removed (pre ++ post) - removed pre)) + 1.
  Proof using Hst.
    destruct (reg_inv post) as (t & Ht & Hc & Hge & Hpc). unfold registered, added, removed.
    assert (Hmono : length (ob_pushed (shared (ob_exec pre))) <= length (ob_pushed (shared (ob_exec (pre ++ post)))) /\
                    size (ob_unlinked (shared (ob_exec pre))) <= size (ob_unlinked (shared (ob_exec (pre ++ post))))).
    { apply mono_exec. }
    unfold changes in *. destruct t as [c pc]. cbn [ot_call ot_pc] in *. subst c.
    destruct pc; try contradiction; [right; lia|right; lia|left; exact Ht].
  Qed.
End register.

(** The position of a node in the order of pushing. *)
Lemma older_index P a b k : NoDup P -> P !! k = Some b -> older P a b -> exists k', k' < k /\ P !! k' = Some a.
Proof. intros Hn Hk (x & y & Hxy & Hx & Hy). assert (y = k) by (eapply NoDup_lookup; eassumption). subst. eauto. Qed.
Lemma index_of (P : list nat) a : a ∈ P -> exists k, k < length P /\ P !! k = Some a.
Proof. intros H. apply elem_of_list_lookup in H as [k Hk]. exists k. split; [eapply lookup_lt_Some; exact Hk|exact Hk]. Qed.

Section notify.
  Context (pre : list (action ocall)) (p : nat) (Hst : threads (ob_exec pre) !! p = Some (ob_start ONotify)).
  Local Notation K := (added pre).

  Definition not_ok (post : list (action ocall)) (t : othread) : Prop :=
    let s := shared (ob_exec (pre ++ Run p :: post)) in
    ot_call t = ONotify /\
    match ot_pc t with
    | N_check n => steps_of p post = 0 /\ exists k, k < K /\ ob_pushed s !! k = Some n
    | N_single n => steps_of p post = 1 /\ 0 < K
    | N_call n _ => exists k, ob_pushed s !! k = Some n /\ steps_of p post + 2 * k + 2 <= 2 * K + 1
    | N_next n _ => exists k, ob_pushed s !! k = Some n /\ steps_of p post + 2 * k + 1 <= 2 * K + 1
    | N_done _ => True
    | _ => False
    end.

  Lemma not_inv post : exists t, threads (ob_exec (pre ++ Run p :: post)) !! p = Some t /\ not_ok post t.
  Proof using Hst.
    induction post as [|a post IH] using rev_ind.
    - destruct (ob_view pre (Run p) p _ Hst) as [(_ & Es & Et)|(Ha & _)]; [|cbn in Ha; rewrite Nat.eqb_refl in Ha; discriminate Ha].
      eexists. split; [exact Et|]. unfold not_ok. rewrite Es. unfold ob_step. cbn [ot_call ot_pc ob_start].
      pose proof (G3 _ (I1 _ _ (oinv_exec pre))) as H3.
      destruct (ob_head (shared (ob_exec pre))) as [h|]; cbn; [|auto]. split; [reflexivity|]. split; [reflexivity|].
      destruct H3 as (Hh & _). apply index_of in Hh. exact Hh.
    - destruct IH as (t & Ht & Hc & Hpc). unfold not_ok.
      replace (pre ++ Run p :: post ++ [a]) with ((pre ++ Run p :: post) ++ [a]) by (rewrite <- app_assoc; reflexivity).
      set (h := pre ++ Run p :: post) in *. pose proof (oinv_exec h) as Hinv.
      destruct (ob_view h a p t Ht) as [(-> & Es & Et)|(Ha & Et & Es)].
      + eexists. split; [exact Et|]. rewrite steps_snoc_run, Es. set (s := shared (ob_exec h)) in *.
        pose proof (G1 _ (I1 _ _ Hinv)) as Hnd. fold s in Hnd.
        destruct t as [c pc]. cbn [ot_call ot_pc] in *. subst c. unfold ob_step. cbn [ot_call ot_pc].
        destruct pc; try contradiction; cbn [snd fst ot_call ot_pc].
        * destruct Hpc as (H0 & k & Hk & Hn). destruct (cdr_of s n); cbn [snd fst ot_call ot_pc].
          -- split; [reflexivity|]. exists k. split; [exact Hn|]. lia.
          -- split; [reflexivity|]. split; [lia|lia].
        * auto.
        * destruct Hpc as (k & Hn & Hk). split; [reflexivity|]. exists k. split; [exact Hn|lia].
        * destruct Hpc as (k & Hn & Hk). assert (Hin : n ∈ ob_pushed s) by (eapply elem_of_list_lookup_2; exact Hn).
          pose proof (G4 _ (I1 _ _ Hinv) _ Hin) as H4. fold s in H4.
          destruct (cdr_of s n) as [m|] eqn:Ec; cbn [snd fst ot_call ot_pc]; [|auto]. split; [reflexivity|].
          destruct H4 as (Hold & _). destruct (older_index _ _ _ _ Hnd Hn Hold) as (k' & Hk' & Hm). exists k'. split; [exact Hm|lia].
        * auto.
      + exists t. split; [exact Et|]. rewrite (steps_snoc_other _ _ _ Ha).
        assert (Hg : forall k n, ob_pushed (shared (ob_exec h)) !! k = Some n -> ob_pushed (shared (ob_exec (h ++ [a]))) !! k = Some n).
        { intros k n Hk. destruct Es as [->|(j & u & _ & Hu & ->)]; [exact Hk|].
          destruct (step_grows j (shared (ob_exec h)) u) as [[Q ->] _]. apply lookup_app_l_Some, Hk. }
        split; [exact Hc|]. destruct (ot_pc t); try contradiction; try exact Hpc.
        * destruct Hpc as (H0 & k & Hk & Hn). eauto.
        * destruct Hpc as (k & Hn & Hk). eauto.
        * destruct Hpc as (k & Hn & Hk). eauto.
  Qed.

  Lemma notify_progress post :
    (exists calls, pass_done (pre ++ Run p :: post) p calls) \/ steps_of p post <= 2 * K.
  Proof using Hst.
    destruct (not_inv post) as (t & Ht & Hc & Hpc). destruct t as [c pc]. cbn [ot_call ot_pc] in *. subst c.
    destruct pc; try contradiction; try (right; lia).
    - right. destruct Hpc as (k & _ & Hk). lia.
    - right. destruct Hpc as (k & _ & Hk). lia.
    - left. eexists. exact Ht.
  Qed.
End notify.

Section cancel.
  Context (pre : list (action ocall)) (i r : nat) (Hst : threads (ob_exec pre) !! i = Some (OThr (OCancel r) (C_walk None))).

  Definition can_ok (post : list (action ocall)) (t : othread) : Prop :=
    let s := shared (ob_exec (pre ++ post)) in
    let K := length (ob_pushed s) in
    let n := steps_of i post in
    ot_call t = OCancel r /\
    exists b, (b = 0 \/ (b <= K + 2 /\ ob_head s <> Some r)) /\
    match ot_pc t with
    | C_walk None => n <= b
    | C_walk (Some x) => exists k, ob_pushed s !! k = Some x /\ n + k <= b + K
    | C_load par => n <= b + K /\ (par = None -> b = 0)
    | C_cas par _ => n <= b + K + 1 /\ (par = None -> b = 0)
    | C_unlock => n <= b + K + 2
    | C_done => True
    | _ => False
    end.

  Lemma other_head s ts j u : oinv s ts -> ts !! j = Some u -> ob_mtx s <> Some j -> r ∈ ob_pushed s ->
    ob_head s <> Some r -> ob_head (fst (ob_step j s u)) <> Some r.
  Proof using.
    intros H Hj Hm Hr Hh. pose proof (I2 _ _ H _ _ Hj) as Ht.
    assert (Hnc : critical (ot_pc u) = false).
    { destruct (critical (ot_pc u)) eqn:E; [|reflexivity]. exfalso. apply Hm. apply (I3 _ _ H). eauto. }
    destruct u as [[|q|] pc]; destruct pc as [|e| | | |par|par|par x| | | |n|n|n acc|n acc|acc]; try discriminate Hnc;
      unfold ob_step; cbn [ot_call ot_pc fst]; auto.
    - destruct (bool_decide _); cbn; [|exact Hh]. intros E. injection E as ->. unfold tok in Ht. cbn in Ht. contradiction.
    - destruct (bool_decide _); exact Hh.
    - destruct (ob_mtx s); cbn; exact Hh.
    - destruct (ob_head s) eqn:E; cbn; congruence.
    - destruct (cdr_of s n); exact Hh.
    - destruct (cdr_of s n); exact Hh.
  Qed.

  Lemma can_inv post : exists t, threads (ob_exec (pre ++ post)) !! i = Some t /\ can_ok post t.
  Proof using Hst.
    induction post as [|a post IH] using rev_ind.
    - rewrite app_nil_r. eexists. split; [exact Hst|]. unfold can_ok. cbn. split; [reflexivity|]. exists 0. split; [auto|]. cbn. lia.
    - destruct IH as (t & Ht & Hc & b & Hb & Hpc). unfold can_ok. rewrite app_assoc.
      set (h := pre ++ post) in *. pose proof (oinv_exec h) as Hinv.
      assert (Htok := I2 _ _ Hinv _ _ Ht).
      destruct (ob_view h a i t Ht) as [(-> & Es & Et)|(Ha & Et & Es)].
      + eexists. split; [exact Et|]. rewrite steps_snoc_run, Es. set (s := shared (ob_exec h)) in *.
        pose proof (I1 _ _ Hinv) as Hg. fold s in Hg. pose proof (G1 _ Hg) as Hnd. set (n := steps_of i post) in *.
        destruct t as [c pc]. cbn [ot_call ot_pc] in *. subst c. unfold ob_step. cbn [ot_call ot_pc].
        destruct pc; try contradiction; cbn [snd fst ot_call ot_pc].
        * (* walk *)
          destruct (load_ptr s parent) as [e|] eqn:El; cbn [snd fst ot_call ot_pc].
          -- assert (He : exists k, ob_pushed s !! k = Some e /\ n + 1 + k <= b + length (ob_pushed s)).
             { destruct parent as [q|]; cbn in El.
               - destruct Hpc as (k & Hq & Hk). assert (Hin : q ∈ ob_pushed s) by (eapply elem_of_list_lookup_2; exact Hq).
                 pose proof (G4 _ Hg _ Hin) as H4. rewrite El in H4. destruct H4 as (Hold & _).
                 destruct (older_index _ _ _ _ Hnd Hq Hold) as (k' & Hk' & He). exists k'. split; [exact He|lia].
               - pose proof (G3 _ Hg) as H3. rewrite El in H3. destruct H3 as (Hin & _). apply index_of in Hin as (k & Hk & He).
                 exists k. split; [exact He|lia]. }
             destruct He as (k & He & Hk). destruct (Nat.eqb_spec e r) as [->|Hne]; cbn [snd fst ot_call ot_pc].
             ++ split; [reflexivity|]. exists b. split; [exact Hb|]. split; [lia|]. intros ->. cbn in El.
                destruct Hb as [Hb|[_ Hb]]; [exact Hb|contradiction].
             ++ split; [reflexivity|]. exists b. split; [exact Hb|]. exists k. split; [exact He|lia].
          -- split; [reflexivity|]. exists b. split; [exact Hb|]. destruct parent as [q|]; [|lia]. destruct Hpc as (k & _ & Hk). lia.
        * split; [reflexivity|]. exists b. split; [exact Hb|]. destruct Hpc as [H1 H2]. split; [lia|exact H2].
        * destruct (bool_decide (load_ptr s parent = Some r)) eqn:E; cbn [snd fst ot_call ot_pc].
          -- split; [reflexivity|]. exists b. destruct Hpc as [H1 H2].
             assert (EP : length (ob_pushed (store_ptr s parent nxt ({[r]} ∪ ob_unlinked s))) = length (ob_pushed s)) by (destruct parent; reflexivity).
             rewrite EP. split; [|lia]. destruct parent as [q|]; [exact Hb|]. left. apply H2. reflexivity.
          -- apply bool_decide_eq_false in E. split; [reflexivity|]. destruct parent as [q|].
             { exfalso. apply E. apply Htok. }
             destruct Hpc as [H1 H2]. rewrite (H2 eq_refl) in H1. exists (length (ob_pushed s) + 2). split; [right; split; [lia|exact E]|lia].
        * split; [reflexivity|]. exists b. auto.
        * split; [reflexivity|]. exists b. auto.
      + exists t. split; [exact Et|]. rewrite (steps_snoc_other _ _ _ Ha). split; [exact Hc|].
        assert (Hgr : exists Q, ob_pushed (shared (ob_exec (h ++ [a]))) = ob_pushed (shared (ob_exec h)) ++ Q).
        { destruct Es as [->|(j & u & _ & Hu & ->)]; [exists []; symmetry; apply app_nil_r|]. apply (step_grows j (shared (ob_exec h)) u). }
        destruct Hgr as [Q EQ].
        assert (Hdone : ot_pc t = C_done \/ (r ∈ ob_pushed (shared (ob_exec h)) /\ critical (ot_pc t) = true)).
        { destruct t as [c pc]. cbn [ot_call ot_pc] in *. subst c. unfold tok in Htok. cbn [ot_call ot_pc] in Htok.
          destruct pc; try contradiction; [right| right | right| right |left; reflexivity]; (split; [|reflexivity]).
          - destruct parent; apply Htok.
          - destruct parent; apply Htok.
          - destruct parent; apply Htok.
          - apply (G2 _ (I1 _ _ Hinv)), Htok. }
        destruct Hdone as [Hd|[Hr Hcr]].
        { exists 0. split; [auto|]. rewrite Hd. exact I. }
        assert (Hm : ob_mtx (shared (ob_exec h)) = Some i) by (apply (I3 _ _ Hinv); eauto).
        exists b. rewrite EQ, app_length. split.
        { destruct Hb as [Hb|[Hb Hh]]; [auto|]. right. split; [lia|]. destruct Es as [->|(j & u & Hji & Hu & ->)]; [exact Hh|].
          apply (other_head _ _ _ _ Hinv Hu); [congruence|exact Hr|exact Hh]. }
        destruct (ot_pc t) as [|e| | | |[x|]|par|par y| | | |x|x|x acc|x acc|acc]; try contradiction; try exact I.
        * destruct Hpc as (k & Hk & Hle). exists k. split; [apply lookup_app_l_Some, Hk|lia].
        * exact Hpc.
        * destruct Hpc. split; [lia|assumption].
        * destruct Hpc. split; [lia|assumption].
        * lia.
  Qed.

  Lemma cancel_progress post :
    threads (ob_exec (pre ++ post)) !! i = Some (OThr (OCancel r) C_done) \/ steps_of i post <= 2 * added (pre ++ post) + 4.
  Proof using Hst.
    destruct (can_inv post) as (t & Ht & Hc & b & Hb & Hpc). unfold added.
    destruct t as [c pc]. cbn [ot_call ot_pc] in *. subst c.
    assert (Hb' : b <= length (ob_pushed (shared (ob_exec (pre ++ post)))) + 2) by (destruct Hb as [->|[? _]]; lia).
    destruct pc as [|e| | | |[x|]|par|par y| | | |x|x|x acc|x acc|acc]; try contradiction; try (right; lia).
    - right. destruct Hpc as (k & _ & Hk). lia.
    - left. exact Ht.
  Qed.
End cancel.

(** ** Entering an observed function *)
Section enter.
  Context (i : nat).

  Lemma f_view pre (a : action fcall) t :
    threads (f_exec pre) !! i = Some t ->
    (a = Run i /\ shared (f_exec (pre ++ [a])) = fst (f_step i (shared (f_exec pre)) t) /\
     threads (f_exec (pre ++ [a])) !! i = Some (snd (f_step i (shared (f_exec pre)) t))) \/
    (is_run i a = false /\ threads (f_exec (pre ++ [a])) !! i = Some t).
  Proof using.
    intros Hi. unfold f_exec. destruct a as [c|j].
    - right. rewrite exec_spawn. cbn [shared threads]. split; [reflexivity|]. apply lookup_app_l_Some, Hi.
    - destruct (decide (j = i)) as [->|Hne].
      + left. unfold f_exec in Hi. rewrite (exec_run _ _ _ _ _ _ Hi). cbn [shared threads]. split; [reflexivity|]. split; [reflexivity|].
        apply list_lookup_insert. eapply lookup_lt_Some; exact Hi.
      + right. split; [cbn; apply Nat.eqb_neq; congruence|].
        destruct (threads (exec f_start f_step fs_new pre) !! j) as [u|] eqn:Ej.
        * rewrite (exec_run _ _ _ _ _ _ Ej). cbn [shared threads]. rewrite list_lookup_insert_ne by congruence. exact Hi.
        * rewrite (exec_run_none _ _ _ _ _ Ej). exact Hi.
  Qed.

  (** Own steps still needed if nobody else raises the mark. *)
  Definition need (s : fs) (t : fthread) : nat :=
    match ft_pc t with
    | F_load => 6 | F_cas => 5 | F_lock => 4 | F_inc => 3 | F_hwload _ => 2
    | F_hwcas _ h => if bool_decide (fs_highwater s = h) then 1 else 3
    | _ => 0
    end.

  Lemma enter_own s c pc p e k d : c = FCall p e k d -> 0 < need s (FThr c pc) ->
    match pc with F_load | F_cas | F_lock | F_inc | F_hwload _ | F_hwcas _ _ => True | _ => False end ->
    let r := f_step i s (FThr c pc) in
    ft_call (snd r) = c /\ S (need (fst r) (snd r)) <= need s (FThr c pc) /\
    match ft_pc (snd r) with F_load | F_cas | F_lock | F_inc | F_hwload _ | F_hwcas _ _ | F_running => True | _ => False end.
  Proof using.
    intros -> Hn Hpc. destruct pc; try contradiction; unfold f_step; cbn [ft_call ft_pc].
    - destruct (bool_decide _); cbn; auto with lia.
    - destruct (fs_first s); cbn; auto with lia.
    - cbn; auto with lia.
    - cbn; auto with lia.
    - destruct (c <=? fs_highwater s)%Z; cbn; [auto with lia|]. rewrite bool_decide_eq_true_2 by reflexivity. auto with lia.
    - cbn in Hn. destruct (Z.eqb_spec (fs_highwater s) h) as [E|E]; cbn.
      + rewrite (bool_decide_eq_true_2 _ E). auto with lia.
      + rewrite (bool_decide_eq_false_2 _ E). auto with lia.
  Qed.

  Lemma enter_other s s' t : need s' t <= need s t + (if bool_decide (fs_highwater s' = fs_highwater s) then 0 else 2).
  Proof using.
    unfold need. destruct (ft_pc t); try lia. do 3 case_bool_decide; lia.
  Qed.

  Definition inside (pc : fpc) : Prop := match pc with F_running | F_endlock | F_done _ => True | _ => False end.
  Definition outside (pc : fpc) : Prop := match pc with F_load | F_cas | F_lock | F_inc | F_hwload _ | F_hwcas _ _ => True | _ => False end.

  Lemma entered_stays p e k d pre post pc :
    threads (f_exec pre) !! i = Some (FThr (FCall p e k d) pc) -> inside pc ->
    exists pc', threads (f_exec (pre ++ post)) !! i = Some (FThr (FCall p e k d) pc') /\ inside pc'.
  Proof using.
    intros H Hin. induction post as [|a post IH] using rev_ind; [rewrite app_nil_r; eauto|].
    destruct IH as (pc' & H' & Hin'). rewrite app_assoc.
    destruct (f_view _ a _ H') as [(-> & Es & Et)|(Ha & Et)]; [|eauto].
    destruct pc'; try contradiction; eexists; (split; [exact Et|exact I]).
  Qed.

  Lemma enter_inv p e k d post : forall pre pc,
    threads (f_exec pre) !! i = Some (FThr (FCall p e k d) pc) -> outside pc ->
    entered (pre ++ post) i \/
    (steps_of i post + 1 <= need (shared (f_exec pre)) (FThr (FCall p e k d) pc) + 2 * raised_by_others i pre post).
  Proof using.
    induction post as [|a post IH]; intros pre pc Ht Hpc.
    - rewrite app_nil_r. right. destruct pc; try contradiction; cbn; try lia. case_bool_decide; lia.
    - replace (pre ++ a :: post) with ((pre ++ [a]) ++ post) by (rewrite <- app_assoc; reflexivity).
      cbn [raised_by_others]. destruct (f_view pre a _ Ht) as [(-> & Es & Et)|(Ha & Et)].
      + cbn [is_run]. rewrite Nat.eqb_refl.
        assert (Hstep : steps_of i (Run i :: post) = S (steps_of i post)) by (unfold steps_of; cbn; rewrite Nat.eqb_refl; reflexivity).
        rewrite Hstep. set (s := shared (f_exec pre)) in *.
        assert (Hn : 0 < need s (FThr (FCall p e k d) pc)) by (destruct pc; try contradiction; cbn; try lia; case_bool_decide; lia).
        destruct (enter_own s (FCall p e k d) pc p e k d eq_refl Hn Hpc) as (H1 & H2 & H3).
        destruct (f_step i s (FThr (FCall p e k d) pc)) as [s' [c' pc']]. cbn [fst snd ft_call ft_pc] in *. subst c'.
        assert (Hd : inside pc' \/ outside pc') by (destruct pc'; try contradiction; cbn; auto).
        destruct Hd as [Hd|Hd].
        * left. destruct (entered_stays _ _ _ _ _ post _ Et Hd) as (pc'' & H & Hi). exists (FCall p e k d), pc''. split; [exact H|exact Hi].
        * destruct (IH _ _ Et Hd) as [H|H]; [left; exact H|]. right. rewrite Es in H. lia.
      + rewrite Ha.
        assert (Hstep : steps_of i (a :: post) = steps_of i post) by (unfold steps_of; cbn; rewrite Ha; reflexivity).
        rewrite Hstep. destruct (IH _ _ Et Hpc) as [H|H]; [left; exact H|]. right.
        pose proof (enter_other (shared (f_exec pre)) (shared (f_exec (pre ++ [a]))) (FThr (FCall p e k d) pc)) as Ho.
        case_bool_decide; lia.
  Qed.

  Lemma enter_progress p e k d pre post :
    threads (f_exec pre) !! i = Some (f_start (FCall p e k d)) ->
    entered (pre ++ post) i \/ steps_of i post <= 2 * raised_by_others i pre post + 5.
  Proof using.
    intros H. destruct (enter_inv p e k d post pre F_load H I) as [H1|H1]; [left; exact H1|]. right. cbn [need ft_pc] in H1. lia.
  Qed.
End enter.

(** ** Waiting for the mutex *)
Lemma lock_waits sched i r :
  threads (ob_exec sched) !! i = Some (OThr (OCancel r) C_lock) ->
  threads (ob_exec (sched ++ [Run i])) !! i = Some (OThr (OCancel r) (C_walk None)) \/
  exists j q pc, threads (ob_exec sched) !! j = Some (OThr (OCancel q) pc) /\ critical pc = true.
Proof.
  intros Hi. destruct (ob_view sched (Run i) i _ Hi) as [(_ & Es & Et)|(Ha & _)]; [|cbn in Ha; rewrite Nat.eqb_refl in Ha; discriminate Ha].
  unfold ob_step in Et. cbn [ot_call ot_pc] in Et. pose proof (oinv_exec sched) as Hinv.
  destruct (ob_mtx (shared (ob_exec sched))) as [j|] eqn:Em; cbn in Et; [|left; exact Et]. right.
  destruct (proj1 (I3 _ _ Hinv j) Em) as (u & Hu & Hc). pose proof (I2 _ _ Hinv _ _ Hu) as Hk.
  destruct u as [[|q|] pc]; cbn in Hc.
  - destruct pc; try discriminate Hc; destruct Hk.
  - exists j, q, pc. auto.
  - destruct pc; try discriminate Hc; destruct Hk.
Qed.

(** ** Starving a registration *)
Definition round (k : nat) : list (action ocall) := [Run 0; Spawn OReg; Run (S k); Run (S k); Run 0].
Fixpoint rounds (k : nat) : list (action ocall) :=
  match k with 0 => [] | S k => rounds k ++ round k end.

Lemma starving k :
  let c := ob_exec (Spawn OReg :: rounds k) in
  threads c !! 0 = Some (OThr OReg R_load) /\ length (threads c) = S k /\ steps_of 0 (rounds k) = 2 * k.
Proof.
  induction k as [|k IH]; [split_and!; reflexivity|]. cbn zeta in *. destruct IH as (H0 & Hl & Hs).
  cbn [rounds]. change (Spawn OReg :: rounds k ++ round k) with ((Spawn OReg :: rounds k) ++ round k).
  set (h := Spawn OReg :: rounds k) in *. pose proof (oinv_exec h) as Hinv.
  assert (Hhead : ob_head (shared (ob_exec h)) <> Some (S k)).
  { intros E. pose proof (G3 _ (I1 _ _ Hinv)) as H3. rewrite E in H3. destruct H3 as (Hp & _).
    apply (pushed_lt _ _ _ Hinv) in Hp. lia. }
  assert (E : ob_exec (h ++ round k) = fold_left (exec1 ob_start ob_step) (round k) (ob_exec h)) by (unfold ob_exec; apply exec_app).
  rewrite E. clear E. destruct (ob_exec h) as [s ts]. cbn [shared threads] in *.
  destruct ts as [|t ts]; [discriminate H0|]. cbn in H0. injection H0 as ->. cbn in Hl. injection Hl as Hl.
  unfold round. cbn [fold_left].
  assert (EL : forall (v x : othread), (v :: ts ++ [x]) !! S k = Some x).
  { intros v x. change ((ts ++ [x]) !! k = Some x). rewrite lookup_app_r by lia. rewrite Hl, Nat.sub_diag. reflexivity. }
  assert (EI : forall (v x y : othread), <[S k := y]> (v :: ts ++ [x]) = v :: ts ++ [y]).
  { intros v x y. change (v :: <[k := y]> (ts ++ [x]) = v :: ts ++ [y]). f_equal. replace k with (length ts + 0) by lia. rewrite insert_app_r. reflexivity. }
  set (v := OThr OReg (R_cas (ob_head s))).
  set (s' := Obs (Some (S k)) (<[S k := ob_head s]> (ob_cdr s)) (ob_mtx s) (ob_pushed s ++ [S k]) (ob_unlinked s)).
  assert (E1 : exec1 ob_start ob_step (Cfg s (OThr OReg R_load :: ts)) (Run 0) = Cfg s (v :: ts)) by reflexivity.
  assert (E2 : exec1 ob_start ob_step (Cfg s (v :: ts)) (Spawn OReg) = Cfg s (v :: ts ++ [OThr OReg R_load])) by reflexivity.
  assert (E3 : exec1 ob_start ob_step (Cfg s (v :: ts ++ [OThr OReg R_load])) (Run (S k)) = Cfg s (v :: ts ++ [OThr OReg (R_cas (ob_head s))])).
  { cbn [exec1 threads shared]. rewrite EL. cbn [ob_step ot_call ot_pc fst snd]. rewrite EI. reflexivity. }
  assert (E4 : exec1 ob_start ob_step (Cfg s (v :: ts ++ [OThr OReg (R_cas (ob_head s))])) (Run (S k)) = Cfg s' (v :: ts ++ [OThr OReg R_done])).
  { cbn [exec1 threads shared]. rewrite EL. cbn [ob_step ot_call ot_pc fst snd]. rewrite bool_decide_eq_true_2 by reflexivity.
    cbn [fst snd]. rewrite EI. reflexivity. }
  assert (E5 : exec1 ob_start ob_step (Cfg s' (v :: ts ++ [OThr OReg R_done])) (Run 0) = Cfg s' (OThr OReg R_load :: ts ++ [OThr OReg R_done])).
  { cbn [exec1 threads shared lookup list_lookup]. subst v. cbn [ob_step ot_call ot_pc].
    rewrite bool_decide_eq_false_2 by (intros E; apply Hhead; symmetry; exact E). reflexivity. }
  rewrite E1, E2, E3, E4, E5. cbn [threads].
  split_and!.
  - reflexivity.
  - cbn. rewrite app_length. cbn. lia.
  - unfold steps_of in *. rewrite List.filter_app, app_length, Hs. cbn. lia.
Qed.

Lemma register_starves : ~ exists B, forall pre post i,
  threads (ob_exec pre) !! i = Some (ob_start OReg) -> B <= steps_of i post -> registered (pre ++ post) i.
Proof.
  intros (B & H). destruct (starving B) as (H0 & _ & Hs). cbn zeta in *.
  specialize (H [Spawn OReg] (rounds B) 0 eq_refl). rewrite Hs in H. specialize (H ltac:(lia)).
  unfold registered in H. cbn [app] in H. rewrite H0 in H. discriminate H.
Qed.
