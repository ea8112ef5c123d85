From Verif Require Import Base BaseProofs Conc Fval DistModel DistSpec DistProofs ValModel ValSpec.
Local Open Scope Z_scope.
Local Arguments B : simpl never.

Definition cnt {A} (f : A -> bool) (l : list A) : nat := length (List.filter f l).
Lemma cnt_app {A} (f : A -> bool) l l' : cnt f (l ++ l') = (cnt f l + cnt f l')%nat.
Proof. unfold cnt. rewrite List.filter_app, app_length. reflexivity. Qed.
Lemma cnt_insert {A} (f : A -> bool) l i x y : l !! i = Some x ->
  (cnt f (<[i := y]> l) + (if f x then 1 else 0) = cnt f l + (if f y then 1 else 0))%nat.
Proof.
  intros H. rewrite <- (take_drop_middle l i x H) at 2. rewrite insert_take_drop by (eapply lookup_lt_Some; exact H). rewrite !cnt_app.
  unfold cnt at 2 4. cbn. destruct (f x), (f y); cbn; fold (cnt f (drop (S i) l)); lia.
Qed.
Lemma cnt_le {A} (f : A -> bool) l : (cnt f l <= length l)%nat.
Proof. unfold cnt. induction l as [|x l IH]; cbn; [lia|]. destruct (f x); cbn; lia. Qed.
Lemma cnt_mono {A} (f g : A -> bool) l : (forall x, f x = true -> g x = true) -> (cnt f l <= cnt g l)%nat.
Proof. intros H. unfold cnt. induction l as [|x l IH]; cbn; [lia|]. pose proof (H x) as Hx. destruct (f x), (g x); cbn; try lia; discriminate (Hx eq_refl). Qed.

(** ** BoolVal *)
Definition begun_of (v : bool) (t : bthread) : bool := b_observes v t && b_begun t.
Definition bshape (t : bthread) : Prop :=
  match bt_call t, bt_pc t with
  | BObserve _, (B_add | B_store) => True
  | BObserve _, B_done out => out = []
  | BStats, (B_trues | B_falses _ | B_recent _ _ | B_done _) => True
  | _, _ => False
  end.
Record binv (s : bshared) (ts : list bthread) : Prop := {
  BI_true : bv_trues s = wrap64 (Z.of_nat (cnt (begun_of true) ts));
  BI_false : bv_falses s = wrap64 (Z.of_nat (cnt (begun_of false) ts));
  BI_recent : bv_recent s = 0 \/ bv_recent s = 1;
  BI_shape : forall i t, ts !! i = Some t -> bshape t
}.
Lemma wrap_idem z k : wrap64 (wrap64 z + k) = wrap64 (z + k).
Proof. unfold wrap64. replace ((z + 2 ^ 63) mod 2 ^ 64 - 2 ^ 63 + k + 2 ^ 63) with ((z + 2 ^ 63) mod 2 ^ 64 + k) by lia. rewrite Zplus_mod_idemp_l. do 2 f_equal. lia. Qed.
Lemma wrap_small z : 0 <= z < 2 ^ 63 -> wrap64 z = z.
Proof. intros H. unfold wrap64. rewrite Z.mod_small by lia. lia. Qed.

Lemma binv_step s ts i t : binv s ts -> ts !! i = Some t -> binv (fst (b_step i s t)) (<[i := snd (b_step i s t)]> ts).
Proof.
  intros H Hi. pose proof (BI_shape _ _ H _ _ Hi) as Hs.
  assert (Hsh : forall t', bshape t' -> forall j u, <[i := t']> ts !! j = Some u -> bshape u).
  { intros t' Ht' j u Hu. apply list_lookup_insert_Some in Hu as [(<- & <- & _)|[_ Hu]]; [exact Ht'|eapply BI_shape; eassumption]. }
  pose proof (fun y => cnt_insert (begun_of true) ts i t y Hi) as Ct. pose proof (fun y => cnt_insert (begun_of false) ts i t y Hi) as Cf.
  destruct t as [c pc]. unfold b_step. cbn [bt_call bt_pc]. unfold bshape in Hs. cbn [bt_call bt_pc] in Hs.
  assert (Hsame : forall r pc', (forall v, begun_of v (BThr c pc') = begun_of v (BThr c pc)) -> bshape (BThr c pc') -> (r = 0 \/ r = 1) ->
     binv (BShared (bv_trues s) (bv_falses s) r) (<[i := BThr c pc']> ts)).
  { intros r pc' E Hp Hr. specialize (Ct (BThr c pc')). specialize (Cf (BThr c pc')). rewrite E in Ct, Cf. constructor; cbn.
    - rewrite (BI_true _ _ H). do 2 f_equal. destruct (begun_of true (BThr c pc)); lia.
    - rewrite (BI_false _ _ H). do 2 f_equal. destruct (begun_of false (BThr c pc)); lia.
    - exact Hr.
    - apply Hsh, Hp. }
  assert (Hs' : BShared (bv_trues s) (bv_falses s) (bv_recent s) = s) by (destruct s; reflexivity).
  destruct pc as [| | |x|x y|out]; destruct c as [v|]; try contradiction.
  - specialize (Ct (BThr (BObserve v) B_store)). specialize (Cf (BThr (BObserve v) B_store)).
    assert (E0 : forall w, begun_of w (BThr (BObserve v) B_add) = false) by (intros w; apply andb_false_r).
    assert (E1 : forall w, begun_of w (BThr (BObserve v) B_store) = Bool.eqb w v) by (intros w; apply andb_true_r).
    rewrite E0, E1 in Ct, Cf. destruct v; cbn in Ct, Cf; constructor; cbn.
    + rewrite (BI_true _ _ H), wrap_idem. f_equal. lia.
    + rewrite (BI_false _ _ H). do 2 f_equal. lia.
    + apply (BI_recent _ _ H).
    + apply Hsh. exact I.
    + rewrite (BI_true _ _ H). do 2 f_equal. lia.
    + rewrite (BI_false _ _ H), wrap_idem. f_equal. lia.
    + apply (BI_recent _ _ H).
    + apply Hsh. exact I.
  - cbn [fst snd]. apply Hsame; [reflexivity|reflexivity|destruct v; auto].
  - cbn [fst snd]. rewrite <- Hs' at 1. apply Hsame; [intros []; reflexivity|exact I|apply (BI_recent _ _ H)].
  - cbn [fst snd]. rewrite <- Hs' at 1. apply Hsame; [intros []; reflexivity|exact I|apply (BI_recent _ _ H)].
  - cbn [fst snd]. rewrite <- Hs' at 1. apply Hsame; [intros []; reflexivity|exact I|apply (BI_recent _ _ H)].
  - cbn [fst snd]. rewrite <- Hs' at 1. apply Hsame; [intros []; reflexivity|exact Hs|apply (BI_recent _ _ H)].
  - cbn [fst snd]. rewrite <- Hs' at 1. apply Hsame; [intros []; reflexivity|exact I|apply (BI_recent _ _ H)].
Qed.
Lemma binv_exec sched : binv (shared (b_exec sched)) (threads (b_exec sched)).
Proof.
  unfold b_exec. apply exec_inv.
  - constructor; cbn; auto. intros i t H. discriminate H.
  - intros s ts a H. constructor.
    + rewrite cnt_app. assert (cnt (begun_of true) [b_start a] = 0%nat) as -> by (destruct a as [v|]; unfold cnt, begun_of; cbn; rewrite ?andb_false_r; reflexivity). rewrite Nat.add_0_r. apply (BI_true _ _ H).
    + rewrite cnt_app. assert (cnt (begun_of false) [b_start a] = 0%nat) as -> by (destruct a as [v|]; unfold cnt, begun_of; cbn; rewrite ?andb_false_r; reflexivity). rewrite Nat.add_0_r. apply (BI_false _ _ H).
    + apply (BI_recent _ _ H).
    + intros i t Ht. apply lookup_app_Some in Ht as [Ht|[_ Ht]]; [eapply BI_shape; eassumption|]. destruct (i - _)%nat as [|n]; [|destruct n; discriminate Ht]. injection Ht as <-. destruct a; exact I.
  - intros s ts i t H Hi. apply binv_step; assumption.
Qed.
Lemma threads_le {S L A} (start : A -> L) step (s0 : S) sched : (length (threads (exec start step s0 sched)) <= length sched)%nat.
Proof.
  induction sched as [|a sched IH] using rev_ind; [apply le_n|]. rewrite app_length. cbn. rewrite exec_snoc. destruct a as [a|i]; cbn.
  - rewrite app_length. cbn. lia.
  - destruct (threads (exec start step s0 sched) !! i); cbn; [rewrite insert_length|]; lia.
Qed.
Lemma counts_exact sched : bounded sched ->
  bv_trues (shared (b_exec sched)) = begun_count true sched /\ bv_falses (shared (b_exec sched)) = begun_count false sched.
Proof.
  intros Hb. pose proof (binv_exec sched) as H. pose proof (threads_le b_start b_step bv_new sched) as Hl. fold (b_exec sched) in Hl. unfold bounded in Hb.
  pose proof (cnt_le (begun_of true) (threads (b_exec sched))). pose proof (cnt_le (begun_of false) (threads (b_exec sched))).
  rewrite (BI_true _ _ H), (BI_false _ _ H), !wrap_small by lia. split; reflexivity.
Qed.
Lemma begun_step i s t : b_begun t = true -> b_begun (snd (b_step i s t)) = true.
Proof. destruct t as [c pc]. unfold b_step, b_begun. cbn. destruct pc; try discriminate; destruct c as [w|]; cbn; auto. Qed.
Lemma call_step i s t : bt_call (snd (b_step i s t)) = bt_call t.
Proof. destruct t as [c pc]. unfold b_step. cbn. destruct pc; try reflexivity; destruct c as [[]|]; reflexivity. Qed.
Lemma begun_cnt v sched : begun_count v sched = Z.of_nat (cnt (begun_of v) (threads (b_exec sched))).
Proof. reflexivity. Qed.
Lemma begun_snoc v sched a : begun_count v sched <= begun_count v (sched ++ [a]).
Proof.
  rewrite !begun_cnt. unfold b_exec. rewrite exec_snoc. set (c := exec b_start b_step bv_new sched). destruct a as [a|i]; cbn [exec1 threads].
  - rewrite cnt_app. lia.
  - destruct (threads c !! i) as [t|] eqn:E; cbn [threads]; [|lia]. set (t' := snd (b_step i (shared c) t)).
    pose proof (cnt_insert (begun_of v) _ i t t' E) as Hc.
    assert (Hm : begun_of v t = true -> begun_of v t' = true).
    { intros Hx. apply andb_true_iff in Hx as [H1 H2]. apply andb_true_iff. split; [|apply begun_step; assumption]. unfold b_observes in *. unfold t'. rewrite call_step. exact H1. }
    fold t'. destruct (begun_of v t); [rewrite Hm in Hc by reflexivity|destruct (begun_of v t')]; lia.
Qed.
Lemma begun_mono v pre post : begun_count v pre <= begun_count v (pre ++ post).
Proof.
  induction post as [|a post IH] using rev_ind; [rewrite app_nil_r; lia|]. rewrite app_assoc. pose proof (begun_snoc v (pre ++ post) a). lia.
Qed.
Lemma finished_begun v sched : finished_count v sched <= begun_count v sched.
Proof.
  unfold finished_count, begun_count. apply inj_le. apply cnt_mono. intros t Ht. apply andb_true_iff in Ht as [H1 H2]. apply andb_true_iff. split; [exact H1|].
  unfold b_finished, b_begun in *. destruct (bt_pc t); try discriminate; reflexivity.
Qed.

(** What a report that began after [pre] has seen so far. *)
Definition seen (lo hi : bool -> Z) (pc : bpc) : Prop :=
  match pc with
  | B_falses x => lo true <= x <= hi true
  | B_recent x y => lo true <= x <= hi true /\ lo false <= y <= hi false
  | B_done out => exists t f r, out = bool_report t f r /\ lo true <= t <= hi true /\ lo false <= f <= hi false /\ (r = 0 \/ r = 1)
  | _ => True
  end.
Lemma seen_mono lo hi hi' pc : (forall v, hi v <= hi' v) -> seen lo hi pc -> seen lo hi' pc.
Proof.
  intros Hm. pose proof (Hm true). pose proof (Hm false). destruct pc as [| | |x|x y|out]; cbn; try tauto; try lia. intros (t & f & r & -> & H1 & H2 & H3). exists t, f, r. split_and!; auto; lia.
Qed.
Lemma report_seen pre post i t : bounded (pre ++ post) -> b_unbegun pre i ->
  threads (b_exec (pre ++ post)) !! i = Some t -> bt_call t = BStats -> seen (fun v => begun_count v pre) (fun v => begun_count v (pre ++ post)) (bt_pc t).
Proof.
  intros Hb Hun. revert t Hb. induction post as [|a post IH] using rev_ind; intros t Hb Ht Hc.
  - rewrite app_nil_r in Ht. specialize (Hun t Ht). unfold b_begun in Hun. destruct (bt_pc t); try discriminate Hun; exact I.
  - assert (Hb' : bounded (pre ++ post)) by (unfold bounded in *; rewrite app_assoc, app_length in Hb; cbn in Hb; lia).
    rewrite app_assoc in *. set (h := pre ++ post) in *.
    assert (Hmono : forall v, begun_count v h <= begun_count v (h ++ [a])) by (intros v; apply begun_snoc).
    assert (Hpre : forall v, begun_count v pre <= begun_count v h) by (intros v; apply begun_mono).
    unfold b_exec in Ht. rewrite exec_snoc in Ht. fold (b_exec h) in Ht. destruct a as [a|j]; cbn in Ht.
    + apply lookup_app_Some in Ht as [Ht|[_ Ht]].
      * eapply seen_mono; [exact Hmono|]. apply IH; assumption.
      * destruct (i - _)%nat as [|n]; [|destruct n; discriminate Ht]. injection Ht as <-. destruct a; exact I.
    + destruct (threads (b_exec h) !! j) as [u|] eqn:Eu; cbn in Ht; [|eapply seen_mono; [exact Hmono|]; apply IH; assumption].
      apply list_lookup_insert_Some in Ht as [(<- & <- & _)|[_ Ht]]; [|eapply seen_mono; [exact Hmono|]; apply IH; assumption].
      rewrite call_step in Hc. specialize (IH u Hb' Eu Hc). destruct (counts_exact h Hb') as [Ct Cf]. pose proof (Hmono true). pose proof (Hmono false). pose proof (Hpre true). pose proof (Hpre false).
      destruct u as [c pc]. cbn in Hc. subst c. unfold b_step. cbn [bt_call bt_pc] in *. destruct pc as [| | |x|x y|out]; cbn in *.
      * exact I.
      * exact I.
      * rewrite Ct. lia.
      * rewrite Cf. lia.
      * exists x, y, (bv_recent (shared (b_exec h))). split; [reflexivity|]. split; [lia|]. split; [lia|]. apply (BI_recent _ _ (binv_exec h)).
      * destruct IH as (t & f & r & -> & Q1 & Q2 & Q3). exists t, f, r. split_and!; auto; lia.
Qed.
Lemma bool_reports sched i out : bounded sched -> b_is sched i BStats out ->
  exists t f r, out = [(B "disposition", FInt (t - f)); (B "false", FInt f); (B "recent", FInt r); (B "true", FInt t)] /\ (r = 0 \/ r = 1) /\
    forall pre post, sched = pre ++ post -> b_unbegun pre i ->
      finished_count true pre <= t <= begun_count true sched /\ finished_count false pre <= f <= begun_count false sched.
Proof.
  intros Hb Hi. destruct (report_seen [] sched i _ Hb (fun t H => ltac:(discriminate H)) Hi eq_refl) as (t & f & r & E & H1 & H2 & H3). cbn in H1, H2.
  exists t, f, r.
  assert (Hbegun : forall v, begun_count v sched <= Z.of_nat (length sched)).
  { intros v. unfold begun_count. pose proof (cnt_le (fun t => b_observes v t && b_begun t) (threads (b_exec sched))) as Hx. unfold cnt in Hx.
    pose proof (threads_le b_start b_step bv_new sched). fold (b_exec sched) in *. lia. }
  assert (0 <= t < 2 ^ 63 /\ 0 <= f < 2 ^ 63) as [Ht Hf].
  { pose proof (Hbegun true). pose proof (Hbegun false). unfold bounded in Hb. change (begun_count true []) with 0 in H1. change (begun_count false []) with 0 in H2. lia. }
  split; [|split; [exact H3|]].
  - rewrite E. unfold bool_report. do 3 f_equal. unfold wrap64. rewrite Z.mod_small by lia. lia.
  - intros pre post -> Hun. destruct (report_seen pre post i _ Hb Hun Hi eq_refl) as (t' & f' & r' & E' & H1' & H2' & _). cbn in H1', H2'.
    rewrite E in E'. unfold bool_report in E'. injection E' as _ Ef _ Et. subst t' f'. pose proof (finished_begun true pre). pose proof (finished_begun false pre). lia.
Qed.

(** At rest. *)
Lemma rest_counts sched : bounded sched -> b_at_rest sched ->
  bv_trues (shared (b_exec sched)) = finished_count true sched /\ bv_falses (shared (b_exec sched)) = finished_count false sched.
Proof.
  intros Hb Hr. destruct (counts_exact sched Hb) as [-> ->]. unfold begun_count, finished_count.
  assert (forall v, cnt (fun t => b_observes v t && b_begun t) (threads (b_exec sched)) = cnt (fun t => b_observes v t && b_finished t) (threads (b_exec sched))) as E.
  { intros v. unfold cnt. unfold b_at_rest in Hr. induction Hr as [|t ts Ht _ IH]; [reflexivity|]. cbn. assert (b_begun t = true) as -> by (unfold b_begun, b_finished in *; destruct (bt_pc t); congruence). rewrite Ht. destruct (b_observes v t && true); cbn; lia. }
  unfold cnt in E. rewrite !E. auto.
Qed.
(** The last store. *)
Definition observed_at (sched : list (action bcall)) (k : nat) : Prop := exists w, b_is sched k (BObserve w) [].
Lemma finished_keep sched a k c out : b_is sched k c out -> b_is (sched ++ [a]) k c out.
Proof.
  unfold b_is, b_exec. rewrite exec_snoc. destruct a as [a|j]; cbn; intros H.
  - apply lookup_app_l_Some, H.
  - destruct (threads (exec b_start b_step bv_new sched) !! j) as [u|] eqn:E; cbn; [|exact H]. destruct (decide (j = k)) as [->|Hne].
    + rewrite H in E. injection E as <-. apply list_lookup_insert. eapply lookup_lt_Some. exact H.
    + rewrite list_lookup_insert_ne by congruence. exact H.
Qed.
Lemma finished_keeps pre post k c out : b_is pre k c out -> b_is (pre ++ post) k c out.
Proof. intros H. induction post as [|a post IH] using rev_ind; [rewrite app_nil_r; exact H|]. rewrite app_assoc. apply finished_keep, IH. Qed.
Lemma last_store sched :
  (bv_recent (shared (b_exec sched)) = 0 /\ forall k, ~ observed_at sched k) \/
  (exists h1 h2 j v, sched = h1 ++ h2 /\ b_is h1 j (BObserve v) [] /\ (forall pre post, h1 = pre ++ post -> post <> [] -> ~ b_is pre j (BObserve v) []) /\
     bv_recent (shared (b_exec sched)) = (if v then 1 else 0) /\ forall k, observed_at sched k -> observed_at h1 k).
Proof.
  induction sched as [|a sched IH] using rev_ind.
  - left. split; [reflexivity|]. intros k [w H]. discriminate H.
  - assert (Hold : forall k, observed_at (sched ++ [a]) k -> observed_at sched k \/ (a = Run k /\ exists w, threads (b_exec sched) !! k = Some (BThr (BObserve w) B_store))).
    { intros k [w Hw]. unfold b_is, b_exec in Hw. rewrite exec_snoc in Hw. fold (b_exec sched) in Hw. destruct a as [a|j]; cbn in Hw.
      - apply lookup_app_Some in Hw as [Hw|[_ Hw]]; [left; exists w; exact Hw|]. destruct (k - _)%nat as [|n]; [|destruct n; discriminate Hw]. destruct a; discriminate Hw.
      - destruct (threads (b_exec sched) !! j) as [u|] eqn:E; cbn in Hw; [|left; exists w; exact Hw].
        apply list_lookup_insert_Some in Hw as [(<- & Hu & _)|[_ Hw]]; [|left; exists w; exact Hw].
        pose proof (BI_shape _ _ (binv_exec sched) _ _ E) as Hs. pose proof (f_equal bt_call Hu) as Hcall. rewrite call_step in Hcall. cbn in Hcall.
        destruct u as [c pc]. cbn in Hcall. subst c. unfold bshape in Hs. cbn in Hs. unfold b_step in Hu. cbn in Hu. destruct pc; try contradiction.
        + destruct w; discriminate Hu.
        + right. split; [reflexivity|]. exists w. exact E.
        + left. exists w. subst out. exact E. }
    assert (Hkeep : forall r, bv_recent (shared (b_exec (sched ++ [a]))) = bv_recent (shared (b_exec sched)) ->
       (forall k w, a = Run k -> threads (b_exec sched) !! k <> Some (BThr (BObserve w) B_store)) -> r = tt ->
       (bv_recent (shared (b_exec (sched ++ [a]))) = 0 /\ forall k, ~ observed_at (sched ++ [a]) k) \/
       (exists h1 h2 j v, sched ++ [a] = h1 ++ h2 /\ b_is h1 j (BObserve v) [] /\ (forall pre post, h1 = pre ++ post -> post <> [] -> ~ b_is pre j (BObserve v) []) /\
          bv_recent (shared (b_exec (sched ++ [a]))) = (if v then 1 else 0) /\ forall k, observed_at (sched ++ [a]) k -> observed_at h1 k)).
    { intros _ -> Hno _. destruct IH as [[-> IH]|(h1 & h2 & j & v & -> & H1 & H2 & H3 & H4)].
      - left. split; [reflexivity|]. intros k Hk. destruct (Hold k Hk) as [Hk'|(-> & w & Hw)]; [apply (IH k Hk')|apply (Hno k w eq_refl Hw)].
      - right. exists h1, (h2 ++ [a]), j, v. split; [rewrite app_assoc; reflexivity|]. split; [exact H1|]. split; [exact H2|]. split; [exact H3|].
        intros k Hk. apply H4. destruct (Hold k Hk) as [Hk'|(-> & w & Hw)]; [exact Hk'|]. destruct (Hno k w eq_refl Hw). }
    destruct a as [a|j].
    + apply (Hkeep tt); [unfold b_exec; rewrite exec_snoc; reflexivity|congruence|reflexivity].
    + destruct (threads (b_exec sched) !! j) as [u|] eqn:E.
      2: { apply (Hkeep tt); [unfold b_exec; rewrite exec_snoc; fold (b_exec sched); cbn; rewrite E; reflexivity| |reflexivity]. intros k w Hk. injection Hk as <-. congruence. }
      destruct (bt_pc u) eqn:Epc; pose proof (BI_shape _ _ (binv_exec sched) _ _ E) as Hs; destruct u as [c pc]; cbn in Epc; subst pc; unfold bshape in Hs; cbn in Hs; destruct c as [w|]; try contradiction.
      2: { right. exists (sched ++ [Run j]), [], j, w. split; [rewrite app_nil_r; reflexivity|].
           assert (Hst : exec b_start b_step bv_new (sched ++ [Run j]) = Cfg (BShared (bv_trues (shared (b_exec sched))) (bv_falses (shared (b_exec sched))) (if w then 1 else 0)) (<[j := BThr (BObserve w) (B_done [])]> (threads (b_exec sched)))).
           { rewrite exec_snoc. fold (b_exec sched). cbn. rewrite E. reflexivity. }
           split; [unfold b_is, b_exec; rewrite Hst; cbn; apply list_lookup_insert; eapply lookup_lt_Some; exact E|].
           split; [|split; [unfold b_exec; rewrite Hst; reflexivity|intros k Hk; exact Hk]].
           intros pre post Hpp Hne Hpre. destruct post as [|z post _] using rev_ind; [congruence|]. rewrite app_assoc in Hpp. apply app_inj_tail in Hpp as [-> _].
           apply (finished_keeps _ post) in Hpre. unfold b_is in Hpre. rewrite E in Hpre. discriminate Hpre. }
      all: apply (Hkeep tt); [unfold b_exec; rewrite exec_snoc; fold (b_exec sched); cbn; rewrite E; try (destruct w); reflexivity| |reflexivity]; intros k' w' Hk'; injection Hk' as <-; rewrite E; discriminate.
Qed.
Lemma prefix_cases {A} (h1 h2 pre post : list A) : h1 ++ h2 = pre ++ post -> (exists x, pre = h1 ++ x) \/ (exists x, x <> [] /\ h1 = pre ++ x).
Proof.
  revert pre. induction h1 as [|a h1 IH]; intros pre H; [left; exists pre; reflexivity|]. destruct pre as [|b pre]; [right; exists (a :: h1); split; [discriminate|reflexivity]|].
  cbn in H. apply cons_inv in H as [-> H]. destruct (IH _ H) as [[x ->]|(x & Hx & ->)]; [left|right]; exists x; auto.
Qed.
Lemma recent_latest sched :
  (bv_recent (shared (b_exec sched)) = 0 /\ forall k w, ~ b_is sched k (BObserve w) []) \/
  (exists j v, latest sched j v /\ bv_recent (shared (b_exec sched)) = (if v then 1 else 0)).
Proof.
  destruct (last_store sched) as [[H1 H2]|(h1 & h2 & j & v & -> & H1 & H2 & H3 & H4)].
  - left. split; [exact H1|]. intros k w Hk. apply (H2 k). exists w. exact Hk.
  - right. exists j, v. split; [|exact H3]. split; [apply finished_keeps, H1|].
    intros k w pre post Hpp Hj Hun Hk. apply prefix_cases in Hpp as [[x ->]|(x & Hx & ->)].
    + destruct (H4 k (ex_intro _ w Hk)) as [w' Hw']. apply (finished_keeps _ x) in Hw'. specialize (Hun _ Hw'). discriminate Hun.
    + apply (H2 pre x eq_refl Hx Hj).
Qed.
Lemma rest_report sched : bounded sched -> b_at_rest sched ->
  let i := length (threads (b_exec sched)) in let t := finished_count true sched in let f := finished_count false sched in
  exists r, b_is (sched ++ [Spawn BStats; Run i; Run i; Run i]) i BStats [(B "disposition", FInt (t - f)); (B "false", FInt f); (B "recent", FInt r); (B "true", FInt t)] /\
    ((r = 0 /\ forall k w, ~ b_is sched k (BObserve w) []) \/ exists j v, latest sched j v /\ r = (if v then 1 else 0)).
Proof.
  intros Hb Hr i t f. destruct (rest_counts sched Hb Hr) as [Et Ef]. exists (bv_recent (shared (b_exec sched))). split; [|apply recent_latest].
  assert (Hrange : forall v, 0 <= finished_count v sched < 2 ^ 63).
  { intros v. unfold finished_count. pose proof (cnt_le (fun t => b_observes v t && b_finished t) (threads (b_exec sched))) as Hx. unfold cnt in Hx.
    pose proof (threads_le b_start b_step bv_new sched). fold (b_exec sched) in *. unfold bounded in Hb. lia. }
  pose proof (Hrange true) as Ht. pose proof (Hrange false) as Hf. fold t in Ht, Et. fold f in Hf, Ef. clearbody t f.
  unfold b_is, b_exec. change ([Spawn BStats; Run i; Run i; Run i]) with ([Spawn BStats] ++ [Run i] ++ [Run i] ++ [Run i]). rewrite !app_assoc. rewrite !exec_snoc. fold (b_exec sched).
  set (c := b_exec sched) in *. cbn [exec1]. fold i.
  assert (L : forall x ts, length ts = i -> (ts ++ [x]) !! i = Some (x : bthread)) by (intros x ts <-; rewrite lookup_app_r, Nat.sub_diag by lia; reflexivity).
  assert (U : forall x y ts, length ts = i -> <[i := y]> (ts ++ [x]) = ts ++ [y : bthread]) by (intros x y ts <-; rewrite insert_app_r_alt, Nat.sub_diag by lia; reflexivity).
  cbn [threads shared]. rewrite L by reflexivity. cbn [exec1 threads shared b_start b_step bt_pc bt_call fst snd]. rewrite U by reflexivity. rewrite L by reflexivity.
  cbn [exec1 threads shared b_start b_step bt_pc bt_call fst snd]. rewrite U by reflexivity. rewrite L by reflexivity.
  cbn [exec1 threads shared b_start b_step bt_pc bt_call fst snd]. rewrite U by reflexivity. rewrite L by reflexivity.
  rewrite Et, Ef. do 3 f_equal. unfold bool_report. do 3 f_equal. unfold wrap64. rewrite Z.mod_small by lia. lia.
Qed.

(** ** Values behind a mutex *)
Section dist.
  Context {V F R : Type}.
  Context (vzero : V) (vlt : V -> V -> bool) (vadd : V -> V -> V).
  Context (fzero : F) (to32 : V -> F) (fless : F -> F -> bool).
  Context (rng_next : R -> Z * R) (seed : R).
  Local Notation vrun := (v_exec vzero vlt vadd fzero to32 fless rng_next seed).
  Local Notation vstep := (v_step vlt vadd to32 fless rng_next).
  Local Notation drun := (dist_run vzero vlt vadd to32 fless rng_next (dist_new vzero fzero seed)).
  Local Notation drunfrom := (dist_run vzero vlt vadd to32 fless rng_next).

  Definition callsts (ts : list (vthread V F R)) (l : list nat) : list (vcall V R) := omap (fun i => vt_call <$> ts !! i) l.
  Lemma callsts_app ts l l' : callsts ts (l ++ l') = callsts ts l ++ callsts ts l'.
  Proof. apply omap_app. Qed.
  Lemma callsts_ext (ts ts' : list (vthread V F R)) l : (forall i, i ∈ l -> vt_call <$> ts' !! i = vt_call <$> ts !! i) -> callsts ts' l = callsts ts l.
  Proof.
    unfold callsts. induction l as [|i l IH]; intros H; [reflexivity|]. cbn. rewrite (H i) by left. rewrite IH; [reflexivity|]. intros j Hj. apply H. right. exact Hj.
  Qed.
  Lemma effects_app (e a b : list (vcall V R)) : effects e (a ++ b) = effects e a ++ effects (e ++ a) b.
  Proof.
    revert e. induction a as [|c a IH]; intros e; cbn; [rewrite app_nil_r; reflexivity|]. rewrite IH, <- !app_assoc. reflexivity.
  Qed.
  Lemma drun_app d h1 h2 : drunfrom d (h1 ++ h2) = match drunfrom d h1 with Ok d' => drunfrom d' h2 | Panic m => Panic m end.
  Proof. revert d. induction h1 as [|[W o] h1 IH]; intros d; cbn; [reflexivity|]. destruct (dist_step _ _ _ _ _ _ _ _ _); [apply IH|reflexivity]. Qed.

  Definition placed (ts : list (vthread V F R)) (order : list nat) (i : nat) (d : dist V F R) : Prop :=
    exists k, order !! k = Some i /\ drun (effects [] (callsts ts (take k order))) = Ok d.
  Definition vshape (ts : list (vthread V F R)) (order : list nat) (i : nat) (t : vthread V F R) : Prop :=
    match vt_pc t with
    | V_start => i ∉ order
    | V_lock => i ∉ order /\ exists k W e, vt_call t = VStop k W e
    | V_emit d' => exists d r, placed ts order i d /\ vt_call t = VStats r /\ d' = dist_copy d r
    | V_panic _ => i ∈ order
    | V_done res => exists d, placed ts order i d /\ res = answer fless d (vt_call t)
    end.
  Record vinv (s : vshared V F R) (ts : list (vthread V F R)) : Prop := {
    VI_nodup : NoDup (vs_order s);
    VI_in : forall i, i ∈ vs_order s -> is_Some (ts !! i);
    VI_dist : vs_dist s = drun (effects [] (callsts ts (vs_order s)));
    VI_stop : forall k, existsb (Nat.eqb k) (vs_stopped s) = existsb (is_stop k) (callsts ts (vs_order s));
    VI_shape : forall i t, ts !! i = Some t -> vshape ts (vs_order s) i t
  }.
  Lemma vcall_step i s t : vt_call (snd (vstep i s t)) = vt_call t.
  Proof.
    destruct t as [c pc]. unfold v_step. cbn [vt_pc vt_call]. destruct pc as [| |d|m|res]; try reflexivity.
    - destruct c as [W v| |r|r|k W e]; try reflexivity; destruct (vs_dist s); reflexivity.
    - destruct c as [W v| |r|r|k W e]; try reflexivity. destruct (vs_dist s); [|reflexivity]. destruct (existsb _ _); reflexivity.
  Qed.
  Lemma placed_ext ts ts' order ext i d : (forall j, j ∈ order -> vt_call <$> ts' !! j = vt_call <$> ts !! j) -> placed ts order i d -> placed ts' (order ++ ext) i d.
  Proof.
    intros Hext (k & Hk & Hd). exists k. split; [apply lookup_app_l_Some, Hk|]. pose proof (lookup_lt_Some _ _ _ Hk).
    rewrite take_app_le by lia. rewrite (callsts_ext ts ts'); [exact Hd|]. intros j Hj. apply Hext. eapply elem_of_take in Hj as (n & Hn & _). eapply elem_of_list_lookup_2. exact Hn.
  Qed.
  Lemma vshape_ext ts ts' order ext i t : (forall j, j ∈ order -> vt_call <$> ts' !! j = vt_call <$> ts !! j) -> i ∉ ext -> vshape ts order i t -> vshape ts' (order ++ ext) i t.
  Proof.
    intros Hext Hi. unfold vshape. destruct (vt_pc t) as [| |d|m|res].
    - rewrite elem_of_app. tauto.
    - rewrite elem_of_app. tauto.
    - intros (d0 & r & H1 & H2 & H3). exists d0, r. split; [eapply placed_ext; eassumption|auto].
    - rewrite elem_of_app. auto.
    - intros (d0 & H1 & H2). exists d0. split; [eapply placed_ext; eassumption|auto].
  Qed.
  (** A step that takes the lock. *)
  Lemma vinv_lock s ts i c pc (d : dist V F R) d' st pc' : vinv s ts -> ts !! i = Some (VThr c pc) -> vs_dist s = Ok d -> i ∉ vs_order s ->
    d' = drunfrom d (effect (callsts ts (vs_order s)) c) ->
    (forall k, existsb (Nat.eqb k) st = existsb (is_stop k) (callsts ts (vs_order s)) || is_stop k c) ->
    match pc' with V_emit e => exists r, c = VStats r /\ e = dist_copy d r | V_panic _ => True | V_done res => res = answer fless d c | _ => False end ->
    vinv (VShared d' st (vs_order s ++ [i])) (<[i := VThr c pc']> ts).
  Proof.
    intros H Hi Hd Hnot Hd' Hst Hpc. set (ts' := <[i := VThr c pc']> ts).
    assert (Hts : forall j, vt_call <$> ts' !! j = vt_call <$> ts !! j).
    { intros j. unfold ts'. destruct (decide (i = j)) as [<-|Hne]; [|rewrite list_lookup_insert_ne by exact Hne; reflexivity]. rewrite Hi, list_lookup_insert by (eapply lookup_lt_Some; exact Hi). reflexivity. }
    assert (Hcalls : forall l, callsts ts' l = callsts ts l) by (intros l; apply callsts_ext; intros; apply Hts).
    assert (Hone : callsts ts [i] = [c]) by (unfold callsts; cbn; rewrite Hi; reflexivity).
    assert (Hplaced : placed ts' (vs_order s ++ [i]) i d).
    { exists (length (vs_order s)). split; [rewrite lookup_app_r, Nat.sub_diag by lia; reflexivity|]. rewrite take_app, Hcalls, <- (VI_dist _ _ H). exact Hd. }
    constructor; cbn [vs_order vs_dist vs_stopped].
    - apply NoDup_app. split; [apply (VI_nodup _ _ H)|]. split; [|apply NoDup_singleton]. intros j Hj Hj'. apply elem_of_list_singleton in Hj'. subst j. auto.
    - intros j Hj. apply elem_of_app in Hj as [Hj|Hj].
      + destruct (VI_in _ _ H j Hj) as [u Hu]. specialize (Hts j). rewrite Hu in Hts. unfold is_Some. destruct (ts' !! j); [eauto|discriminate Hts].
      + apply elem_of_list_singleton in Hj. subst j. unfold ts'. rewrite list_lookup_insert by (eapply lookup_lt_Some; exact Hi). eauto.
    - rewrite Hcalls, callsts_app, Hone, effects_app, drun_app, <- (VI_dist _ _ H), Hd. cbn [effects app]. rewrite app_nil_r. exact Hd'.
    - intros k. rewrite Hst, Hcalls, callsts_app, Hone, existsb_app. cbn. rewrite orb_false_r. reflexivity.
    - intros j u Hu. unfold ts' in Hu. apply list_lookup_insert_Some in Hu as [(<- & <- & _)|[Hne Hu]].
      + unfold vshape. cbn [vt_pc vt_call]. destruct pc' as [| |e|m|res]; try contradiction.
        * destruct Hpc as (r & -> & ->). exists d, r. auto.
        * apply elem_of_app. right. apply elem_of_list_singleton. reflexivity.
        * exists d. auto.
      + eapply vshape_ext; [intros; apply Hts|intros Hx; apply elem_of_list_singleton in Hx; congruence|]. eapply VI_shape; eassumption.
  Qed.
  (** A step that does not. *)
  Lemma vinv_plain s ts i c pc pc' : vinv s ts -> ts !! i = Some (VThr c pc) -> vshape ts (vs_order s) i (VThr c pc') -> vinv s (<[i := VThr c pc']> ts).
  Proof.
    intros H Hi Hsh. set (ts' := <[i := VThr c pc']> ts).
    assert (Hts : forall j, vt_call <$> ts' !! j = vt_call <$> ts !! j).
    { intros j. unfold ts'. destruct (decide (i = j)) as [<-|Hne]; [|rewrite list_lookup_insert_ne by exact Hne; reflexivity]. rewrite Hi, list_lookup_insert by (eapply lookup_lt_Some; exact Hi). reflexivity. }
    assert (Hcalls : forall l, callsts ts' l = callsts ts l) by (intros l; apply callsts_ext; intros; apply Hts).
    constructor.
    - apply (VI_nodup _ _ H).
    - intros j Hj. destruct (VI_in _ _ H j Hj) as [u Hu]. specialize (Hts j). rewrite Hu in Hts. unfold is_Some. destruct (ts' !! j); [eauto|discriminate Hts].
    - rewrite Hcalls. apply (VI_dist _ _ H).
    - intros k. rewrite Hcalls. apply (VI_stop _ _ H).
    - intros j u Hu. rewrite <- (app_nil_r (vs_order s)). eapply vshape_ext; [intros; apply Hts|apply not_elem_of_nil|].
      unfold ts' in Hu. apply list_lookup_insert_Some in Hu as [(<- & <- & _)|[Hne Hu]]; [exact Hsh|eapply VI_shape; eassumption].
  Qed.
  Lemma vinv_step s ts i t : vinv s ts -> ts !! i = Some t -> vinv (fst (vstep i s t)) (<[i := snd (vstep i s t)]> ts).
  Proof.
    intros H Hi. pose proof (VI_shape _ _ H _ _ Hi) as Hs. destruct t as [c pc].
    assert (Hid : vinv s (<[i := VThr c pc]> ts)) by (eapply vinv_plain; eassumption).
    assert (Hk : forall st, (forall k, existsb (Nat.eqb k) st = existsb (Nat.eqb k) (vs_stopped s) || is_stop k c) -> forall k, existsb (Nat.eqb k) st = existsb (is_stop k) (callsts ts (vs_order s)) || is_stop k c).
    { intros st Hst k. rewrite Hst. f_equal. apply (VI_stop _ _ H). }
    unfold vshape in Hs. cbn [vt_pc vt_call] in Hs. unfold v_step. cbn [vt_pc vt_call]. destruct pc as [| |d0|m|res]; try exact Hid.
    - destruct c as [W v| |r|r|k W e].
      5: { cbn [fst snd]. eapply vinv_plain; [exact H|exact Hi|]. unfold vshape. cbn. split; [exact Hs|eauto]. }
      all: destruct (vs_dist s) as [d|m] eqn:Ed; [|exact Hid]; cbn [fst snd]; unfold v_locked; eapply vinv_lock; try eassumption; try reflexivity.
      all: try (apply Hk; intros k; cbn; rewrite orb_false_r; reflexivity).
      + cbn. unfold v_insert. destruct (dist_insert _ _ _ _ _ _ _); reflexivity.
      + unfold v_after. destruct (v_insert _ _ _ _ _ _ _); [reflexivity|exact I].
      + exists r. auto.
    - destruct Hs as [Hs (k & W & e & Ec)]. subst c. destruct (vs_dist s) as [d|m] eqn:Ed; [|exact Hid].
      destruct (existsb (Nat.eqb k) (vs_stopped s)) eqn:Est; cbn [fst snd]; unfold v_locked.
      + eapply vinv_lock; try eassumption; try reflexivity.
        * unfold effect. rewrite <- (VI_stop _ _ H), Est. reflexivity.
        * apply Hk. intros k'. cbn. destruct (Nat.eqb k' k) eqn:Ek; [|rewrite orb_false_r; reflexivity]. apply Nat.eqb_eq in Ek. subst k'. rewrite Est. reflexivity.
      + eapply vinv_lock; try eassumption; try reflexivity.
        * unfold effect. rewrite <- (VI_stop _ _ H), Est. cbn. unfold v_insert. destruct (dist_insert _ _ _ _ _ _ _); reflexivity.
        * apply Hk. intros k'. cbn. apply orb_comm.
        * unfold v_after. destruct (v_insert _ _ _ _ _ _ _); [reflexivity|exact I].
    - destruct Hs as (d & r & Hp & -> & ->). cbn [fst snd]. eapply vinv_plain; [exact H|exact Hi|]. unfold vshape. cbn. exists d. auto.
  Qed.
  Lemma vinv_exec sched : vinv (shared (vrun sched)) (threads (vrun sched)).
  Proof.
    unfold v_exec. apply exec_inv.
    - constructor; cbn; auto; [apply NoDup_nil_2|intros i H; apply elem_of_nil in H; destruct H|intros i t H; discriminate H].
    - intros s ts a H.
      assert (Hts : forall j, j ∈ vs_order s -> vt_call <$> (ts ++ [v_start a]) !! j = vt_call <$> ts !! j).
      { intros j Hj. destruct (VI_in _ _ H j Hj) as [u Hu]. rewrite (lookup_app_l_Some _ _ _ _ Hu), Hu. reflexivity. }
      constructor.
      + apply (VI_nodup _ _ H).
      + intros j Hj. destruct (VI_in _ _ H j Hj) as [u Hu]. exists u. apply lookup_app_l_Some, Hu.
      + rewrite (callsts_ext ts) by exact Hts. apply (VI_dist _ _ H).
      + intros k. rewrite (callsts_ext ts) by exact Hts. apply (VI_stop _ _ H).
      + intros j u Hu. rewrite <- (app_nil_r (vs_order s)). apply lookup_app_Some in Hu as [Hu|[Hge Hu]].
        * eapply vshape_ext; [exact Hts|apply not_elem_of_nil|eapply VI_shape; eassumption].
        * destruct (j - _)%nat as [|n]; [|destruct n; discriminate Hu]. injection Hu as <-. unfold vshape. cbn. rewrite app_nil_r. intros Hin. destruct (VI_in _ _ H j Hin) as [u Hu]. apply lookup_lt_Some in Hu. lia.
    - intros s ts i t H Hi. apply vinv_step; assumption.
  Qed.
  Lemma order_grows pre post : exists ext, vs_order (shared (vrun (pre ++ post))) = vs_order (shared (vrun pre)) ++ ext.
  Proof.
    induction post as [|a post [ext IH]] using rev_ind; [exists []; rewrite !app_nil_r; reflexivity|]. rewrite app_assoc. unfold v_exec. rewrite exec_snoc. fold (vrun (pre ++ post)).
    assert (Hs : exists ext', vs_order (shared (exec1 v_start vstep (vrun (pre ++ post)) a)) = vs_order (shared (vrun (pre ++ post))) ++ ext').
    { destruct a as [a|i]; cbn; [exists []; rewrite app_nil_r; reflexivity|]. destruct (threads (vrun (pre ++ post)) !! i) as [[c pc]|]; [|exists []; rewrite app_nil_r; reflexivity].
      set (s := shared (vrun (pre ++ post))). unfold v_step. cbn [vt_pc vt_call shared]. assert (Hz : exists ext', vs_order s = vs_order s ++ ext') by (exists []; rewrite app_nil_r; reflexivity).
      destruct pc as [| |d0|m|res]; try exact Hz.
      - destruct c as [W v| |r|r|k W e]; try exact Hz; destruct (vs_dist s); try exact Hz; exists [i]; reflexivity.
      - destruct c as [W v| |r|r|k W e]; try exact Hz. destruct (vs_dist s); try exact Hz. destruct (existsb _ _); exists [i]; reflexivity. }
    destruct Hs as [ext' Hs]. exists (ext ++ ext'). rewrite app_assoc. etransitivity; [exact Hs|]. f_equal. exact IH.
  Qed.
  Lemma sequential sched : sequential_order vzero vlt vadd fzero to32 fless rng_next seed sched (vs_order (shared (vrun sched))).
  Proof.
    pose proof (vinv_exec sched) as H. split; [apply (VI_nodup _ _ H)|]. split.
    - intros i c res Hi. pose proof (VI_shape _ _ H _ _ Hi) as (d & (k & Hk & Hd) & Hres). exists k, d. auto.
    - intros i j a b pre post Ha Hb -> (c & res & Hi) Hj. destruct (order_grows pre post) as [ext Hext]. rewrite Hext in *. pose proof (vinv_exec pre) as Hp.
      pose proof (VI_shape _ _ Hp _ _ Hi) as (d & (k & Hk & _) & _). pose proof (lookup_lt_Some _ _ _ Hk).
      assert (a = k) by (eapply NoDup_lookup; [apply (VI_nodup _ _ H)| |]; rewrite Hext; [exact Ha|apply lookup_app_l_Some, Hk]). subst a.
      apply lookup_app_Some in Hb as [Hb|[Hb _]]; [|lia]. exfalso. apply elem_of_list_lookup_2 in Hb. destruct (VI_in _ _ Hp j Hb) as [t Ht]. specialize (Hj t Ht).
      pose proof (VI_shape _ _ Hp _ _ Ht) as Hs. unfold vshape in Hs. rewrite Hj in Hs. auto.
  Qed.

  (** ** Timers *)
  Lemma call_keeps pre post i t : threads (vrun pre) !! i = Some t -> exists t', threads (vrun (pre ++ post)) !! i = Some t' /\ vt_call t' = vt_call t.
  Proof.
    intros Ht. induction post as [|a post (t' & IH & Ec)] using rev_ind; [rewrite app_nil_r; eauto|]. rewrite app_assoc.
    assert (Hs : exists u, threads (exec1 v_start vstep (vrun (pre ++ post)) a) !! i = Some u /\ vt_call u = vt_call t').
    { destruct a as [a|j]; cbn; [exists t'; split; [apply lookup_app_l_Some, IH|reflexivity]|].
      destruct (threads (vrun (pre ++ post)) !! j) as [v|] eqn:Ej; cbn; [|eauto]. destruct (decide (j = i)) as [->|Hne].
      - rewrite list_lookup_insert by (eapply lookup_lt_Some; exact IH). eexists. split; [reflexivity|]. rewrite vcall_step. congruence.
      - rewrite list_lookup_insert_ne by exact Hne. eauto. }
    destruct Hs as (u & Hu & Ecu). exists u. unfold v_exec. rewrite exec_snoc. split; [exact Hu|congruence].
  Qed.
  Lemma timer_threads sched : timer_only sched -> forall i t, threads (vrun sched) !! i = Some t -> timer_call (vt_call t).
  Proof.
    intros H. induction sched as [|a sched IH] using rev_ind; [intros i t Ht; discriminate Ht|]. apply Forall_app in H as [H1 H2]. apply Forall_cons in H2 as [H2 _]. specialize (IH H1).
    assert (Hs : forall i t, threads (exec1 v_start vstep (vrun sched) a) !! i = Some t -> timer_call (vt_call t)).
    { intros i t Ht. destruct a as [a|j]; cbn in Ht.
      - apply lookup_app_Some in Ht as [Ht|[_ Ht]]; [eapply IH; exact Ht|]. destruct (i - _)%nat as [|n]; [|destruct n; discriminate Ht]. injection Ht as <-. exact H2.
      - destruct (threads (vrun sched) !! j) as [u|] eqn:Ej; cbn in Ht; [|eapply IH; exact Ht]. apply list_lookup_insert_Some in Ht as [(<- & <- & _)|[_ Ht]]; [rewrite vcall_step; eapply IH; exact Ej|eapply IH; exact Ht]. }
    intros i t Ht. unfold v_exec in Ht. rewrite exec_snoc in Ht. eapply Hs, Ht.
  Qed.
  Definition spec_call (x : nat * (Z * V)) : vcall V R := VStop (fst x) (fst (snd x)) (snd (snd x)).
  Lemma firsts_exist (ts : list (vthread V F R)) : (forall i t, ts !! i = Some t -> timer_call (vt_call t)) -> forall p, (forall i, i ∈ p -> is_Some (ts !! i)) ->
    exists firsts (stops : list (nat * (Z * V))),
      Forall2 (fun i x => exists a t, p !! a = Some i /\ ts !! i = Some t /\ vt_call t = spec_call x /\ existsb (is_stop (fst x)) (callsts ts (take a p)) = false) firsts stops /\
      effects [] (callsts ts p) = map (fun x => (fst (snd x), DInsert (snd (snd x)))) stops /\
      NoDup (map fst stops) /\ (forall k, existsb (is_stop k) (callsts ts p) = true <-> k ∈ map fst stops).
  Proof.
    intros Ht p. induction p as [|i p IH] using rev_ind; intros Hin.
    - exists [], []. split_and!; [constructor|reflexivity|apply NoDup_nil_2|]. intros k. cbn. split; [discriminate|intros Hk; apply elem_of_nil in Hk; destruct Hk].
    - destruct IH as (firsts & stops & H1 & H2 & H3 & H4); [intros j Hj; apply Hin, elem_of_app; left; exact Hj|].
      destruct (Hin i) as [t Hi]; [apply elem_of_app; right; left|].
      assert (Hone : callsts ts (p ++ [i]) = callsts ts p ++ [vt_call t]) by (rewrite callsts_app; unfold callsts at 2; cbn; rewrite Hi; reflexivity).
      assert (H1' : Forall2 (fun i0 x => exists a t, (p ++ [i]) !! a = Some i0 /\ ts !! i0 = Some t /\ vt_call t = spec_call x /\ existsb (is_stop (fst x)) (callsts ts (take a (p ++ [i]))) = false) firsts stops).
      { eapply Forall2_impl; [exact H1|]. intros j x (a & u & Ha & Hu & Ec & Ex). exists a, u. split; [apply lookup_app_l_Some, Ha|]. split; [exact Hu|]. split; [exact Ec|]. apply lookup_lt_Some in Ha. rewrite take_app_le by lia. exact Ex. }
      rewrite Hone, effects_app, H2. cbn [effects app]. rewrite app_nil_r. pose proof (Ht _ _ Hi) as Htc.
      destruct (vt_call t) as [W v| |r|r|k W e] eqn:Ec; try destruct Htc.
      1,2: exists firsts, stops; split; [exact H1'|]; split; [cbn; apply app_nil_r|]; split; [exact H3|]; intros k; rewrite existsb_app; cbn; rewrite orb_false_r; apply H4.
      cbn [effect]. destruct (existsb (is_stop k) (callsts ts p)) eqn:Ek.
      + exists firsts, stops. split; [exact H1'|]. split; [apply app_nil_r|]. split; [exact H3|]. intros k'. rewrite existsb_app. cbn. rewrite orb_false_r, orb_true_iff, H4. rewrite Nat.eqb_eq. split; [|auto]. intros [Hk| ->]; [exact Hk|]. apply H4. exact Ek.
      + exists (firsts ++ [i]), (stops ++ [(k, (W, e))]). rewrite !map_app. split; [|split; [reflexivity|split]].
        * apply Forall2_app; [exact H1'|]. constructor; [|constructor]. exists (length p), t. split; [rewrite lookup_app_r, Nat.sub_diag by lia; reflexivity|]. split; [exact Hi|]. split; [exact Ec|]. rewrite take_app. exact Ek.
        * apply NoDup_app. split; [exact H3|]. split; [|apply NoDup_singleton]. intros k' Hk' Hk2. apply elem_of_list_singleton in Hk2. cbn in Hk2. subst k'. apply H4 in Hk'. congruence.
        * intros k'. change (map fst [(k, (W, e))]) with [k]. rewrite existsb_app, elem_of_app, elem_of_list_singleton. cbn. rewrite orb_false_r, orb_true_iff, H4, Nat.eqb_eq. reflexivity.
  Qed.
  Lemma is_stop_in ts order k a i t W e : order !! a = Some i -> ts !! i = Some t -> vt_call t = VStop k W e -> forall b, (a < b)%nat -> existsb (is_stop k) (callsts ts (take b order)) = true.
  Proof.
    intros Ha Hi Hc b Hb. apply existsb_exists. exists (VStop k W e). split; [|cbn; apply Nat.eqb_refl]. apply elem_of_list_In. apply elem_of_list_omap. exists i. split; [|rewrite Hi; cbn; congruence].
    apply elem_of_list_lookup. exists a. rewrite lookup_take by lia. exact Ha.
  Qed.
  Lemma timer_values sched i r res : timer_only sched -> v_finished vzero vlt vadd fzero to32 fless rng_next seed sched i (VValues r) res ->
    exists d firsts stops, res = RCopy (dist_copy d r) /\
      drun (map (fun x => (fst (snd x), DInsert (snd (snd x)))) stops) = Ok d /\
      NoDup (map fst stops) /\
      Forall2 (fun j x => stop_of vzero vlt vadd fzero to32 fless rng_next seed sched j (fst x) (fst (snd x)) (snd (snd x)) /\ ~ v_unbegun vzero vlt vadd fzero to32 fless rng_next seed sched j /\
         forall pre post j' W' e' res', sched = pre ++ post -> v_unbegun vzero vlt vadd fzero to32 fless rng_next seed pre j ->
           ~ v_finished vzero vlt vadd fzero to32 fless rng_next seed pre j' (VStop (fst x) W' e') res') firsts stops /\
      forall pre post j k W e res', sched = pre ++ post -> v_finished vzero vlt vadd fzero to32 fless rng_next seed pre j (VStop k W e) res' ->
        v_unbegun vzero vlt vadd fzero to32 fless rng_next seed pre i -> k ∈ map fst stops.
  Proof.
    intros Ht Hi. pose proof (sequential sched) as (Hnd & Hseq & Hrt). pose proof (vinv_exec sched) as H. destruct (Hseq _ _ _ Hi) as (pos & d & Hpos & Hd & ->).
    set (order := vs_order (shared (vrun sched))) in *. set (ts := threads (vrun sched)) in *.
    assert (Hin : forall p, forall j, j ∈ take p order -> is_Some (ts !! j)).
    { intros p j Hj. apply (VI_in _ _ H). eapply elem_of_take in Hj as (n & Hn & _). eapply elem_of_list_lookup_2. exact Hn. }
    destruct (firsts_exist ts (timer_threads _ Ht) (take pos order) (Hin pos)) as (firsts & stops & H1 & H2 & H3 & H4).
    exists d, firsts, stops. split; [reflexivity|]. split; [rewrite <- H2; exact Hd|]. split; [exact H3|]. split.
    - eapply Forall2_impl; [exact H1|]. intros j x (a & t & Ha & Hj & Ec & Ex). assert (Hlt : (a < pos)%nat) by (apply lookup_lt_Some in Ha; rewrite take_length in Ha; lia). rewrite lookup_take in Ha by exact Hlt. rewrite take_take, Nat.min_l in Ex by lia. split; [|split].
      + exists t. split; [exact Hj|exact Ec].
      + intros Hun. specialize (Hun _ Hj). pose proof (VI_shape _ _ H _ _ Hj) as Hs. unfold vshape in Hs. rewrite Hun in Hs. apply Hs. eapply elem_of_list_lookup_2. exact Ha.
      + intros pre post j' W' e' res' -> Hun Hf. pose proof (vinv_exec pre) as Hp. pose proof (VI_shape _ _ Hp _ _ Hf) as (d' & (b & Hb & _) & _).
        destruct (order_grows pre post) as [ext Hext]. fold order in Hext.
        assert (Hb' : order !! b = Some j') by (rewrite Hext; apply lookup_app_l_Some, Hb).
        assert ((b < a)%nat) by (eapply (Hrt j' j b a pre post); eauto).
        destruct (call_keeps pre post j' _ Hf) as (t' & Ht' & Ec'). cbn in Ec'. rewrite (is_stop_in ts order (fst x) b j' t' W' e' Hb' Ht' Ec' a) in Ex by assumption. discriminate Ex.
    - intros pre post j k W e res' -> Hf Hun. apply H4. pose proof (vinv_exec pre) as Hp. pose proof (VI_shape _ _ Hp _ _ Hf) as (d' & (b & Hb & _) & _).
      destruct (order_grows pre post) as [ext Hext]. fold order in Hext. assert (Hb' : order !! b = Some j) by (rewrite Hext; apply lookup_app_l_Some, Hb).
      assert ((b < pos)%nat) by (eapply (Hrt j i b pos pre post); eauto).
      destruct (call_keeps pre post j _ Hf) as (t' & Ht' & Ec'). cbn in Ec'. eapply (is_stop_in ts order k b j t' W e Hb' Ht' Ec'). assumption.
  Qed.
  Lemma stop_returns sched i k W e res : v_finished vzero vlt vadd fzero to32 fless rng_next seed sched i (VStop k W e) res -> res = RElapsed e.
  Proof. intros H. destruct (proj1 (proj2 (sequential sched)) _ _ _ H) as (_ & d & _ & _ & ->). reflexivity. Qed.
End dist.

(** ** What a distribution reports *)
Lemma query_again {V F R} (fless : F -> F -> bool) (d : dist V F R) :
  query_reads fless (query_state fless d) = query_reads fless d /\
  (0 < d_count d -> average_reads (query_state fless d) = query_reads fless d) /\ d_recent (query_state fless d) = d_recent d.
Proof.
  assert (E : rlen (query_state fless d) = rlen d).
  { unfold query_state. destruct (rlen d <? 2); [reflexivity|]. destruct (d_sorted d); reflexivity. }
  assert (Q : d_recent (query_state fless d) = d_recent d).
  { unfold query_state. destruct (rlen d <? 2); [reflexivity|]. destruct (d_sorted d); reflexivity. }
  assert (I : query_state fless (query_state fless d) = query_state fless d).
  { unfold query_state at 1. rewrite E. destruct (rlen d <? 2) eqn:L; [reflexivity|].
    assert (d_sorted (query_state fless d) = true) as ->; [|reflexivity]. unfold query_state. rewrite L. destruct (d_sorted d) eqn:S; [exact S|reflexivity]. }
  split; [|split; [|exact Q]].
  - unfold query_reads. rewrite E, I. destruct (rlen d <? 2) eqn:L; [|reflexivity]. unfold query_state. rewrite L. reflexivity.
  - intros H. unfold average_reads, query_reads. rewrite E. assert (0 < rlen d) by (unfold rlen, ReservoirSize; destruct (Z.ltb_spec (d_count d) 64); lia).
    destruct (Z.leb_spec (rlen d) 0); [lia|]. destruct (Z.ltb_spec (rlen d) 2); [|reflexivity].
    assert (rlen d = 1) as -> by lia. unfold query_state. destruct (Z.ltb_spec (rlen d) 2); [reflexivity|lia].
Qed.
Lemma dist_report {F R} (fzero : F) to32 fless (rng_next : R -> Z * R) r h d :
  inserts h + 1 < 2 ^ 63 ->
  idist_run to32 fless rng_next (idist_new fzero r) h = Ok d ->
  let xs := recorded h in
  (xs = [] -> dist_stats fless d = [(B "count", DCount 0)]) /\
  (xs <> [] -> exists lo hi held, smallest xs lo /\ largest xs hi /\
     Z.of_nat (length held) = Z.min (Z.of_nat (length xs)) 64 /\ images_of_distinct to32 held xs /\
     dist_stats fless d =
       [(B "count", DCount (Z.of_nat (length xs))); (B "sum", DValue (wrap64 (zsum xs))); (B "min", DValue lo); (B "max", DValue hi);
        (B "rmin", DQuantileOf (B "0") held); (B "ravg", DAverageOf held); (B "r10", DQuantileOf (B ".1") held); (B "r50", DQuantileOf (B ".5") held);
        (B "r90", DQuantileOf (B ".9") held); (B "r99", DQuantileOf (B ".99") held); (B "rmax", DQuantileOf (B "1") held);
        (B "recent", DValue (SpecBase.latest xs))]).
Proof.
  intros Hi Hr xs. destruct (idist_exact fzero to32 fless rng_next r h d Hi Hr) as (E1 & E2 & E3 & E4 & E5). fold xs in E1, E2, E3, E4, E5.
  unfold dist_stats. rewrite E1. split; intros Hx.
  - rewrite Hx. reflexivity.
  - assert (Hn : 0 < Z.of_nat (length xs)) by (destruct xs; [congruence|cbn; lia]). apply Z.ltb_lt in Hn as Hb. rewrite Hb. apply Z.ltb_lt in Hb.
    destruct (query_again fless d) as (A1 & A2 & A3). specialize (A2 ltac:(lia)). rewrite A1, A2, A3, E2, E5.
    destruct (reservoir_holds _ _ _ _ _ _ _ _ _ _ Hi Hr) as (R1 & R2 & _ & R4). specialize (R4 Hx). fold xs in R1, R2.
    exists (d_low d), (d_high d), (query_reads fless d). split_and!; [exact E3|exact E4| | |reflexivity].
    + rewrite (Permutation_length R4). exact R1.
    + destruct R2 as (ys & S & P). exists ys. split; [exact S|]. rewrite R4. exact P.
Qed.
