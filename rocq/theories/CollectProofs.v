(** Lemmas about package collect. *)
From Verif Require Import Base Conc ScopeSpec CollectModel CollectSpec.
Local Open Scope Z_scope.

(** ** ObserveAllTraces *)

(** What the thread holding the lock is doing. *)
Inductive phase := PIdle | PMark (t : nat) | PAttach (t : nat) | PAppend (t k : nat) | PRange | PCancel (l : list nat).
Definition bphase (t : nat) (b : bpc) : option phase :=
  match b with
  | B_lock => None | B_check => Some PIdle | B_mark => Some (PMark t) | B_attach => Some (PAttach t)
  | B_append k => Some (PAppend t k) | B_unlock => Some PIdle
  end.
Definition tphase (th : athread) : option phase :=
  match ah_call th, ah_pc th with
  | ASetup _, O_in b t _ => bphase t b
  | ATrace t, T_in b => bphase t b
  | ACancel, K_stop | ACancel, K_unlock => Some PIdle
  | ACancel, K_range => Some PRange
  | ACancel, K_cancel l => Some (PCancel l)
  | _, _ => None
  end.

Record dinv (s : allt) (ph : phase) : Prop := {
  D1 : NoDup (at_log s);
  D2 : forall x, x ∈ at_log s -> x ∈ at_existing s;
  D3 : forall x, x ∈ at_existing s -> x ∈ at_log s \/ ph = PAttach x;
  D4 : at_cancelers s = seq 0 (match ph with PAppend _ k => k | _ => length (at_log s) end);
  D5 : match ph with
       | PMark t => t ∉ at_existing s /\ at_stopping s = false
       | PAttach t => t ∈ at_existing s /\ t ∉ at_log s /\ at_stopping s = false
       | PAppend t k => length (at_log s) = S k /\ at_log s !! k = Some t /\ at_stopping s = false
       | PRange | PCancel _ => at_stopping s = true
       | PIdle => True
       end;
  D6 : at_stopping s = false -> forall k, k ∈ at_attached s <-> (k < length (at_log s))%nat;
  D7 : at_stopping s = true -> forall k, k ∈ at_attached s ->
       match ph with PRange => (k < length (at_log s))%nat | PCancel l => k ∈ l | _ => False end
}.
(** The parts of the state [dinv] is about. *)
Definition same_data (s s' : allt) : Prop :=
  at_log s' = at_log s /\ at_existing s' = at_existing s /\ at_cancelers s' = at_cancelers s /\ at_stopping s' = at_stopping s /\ at_attached s' = at_attached s.
Lemma dinv_same s s' ph : same_data s s' -> dinv s ph -> dinv s' ph.
Proof. intros (E1 & E2 & E3 & E4 & E5) [H1 H2 H3 H4 H5 H6 H7]. constructor; rewrite ?E1, ?E2, ?E3, ?E4, ?E5; assumption. Qed.

Record minv (s : allt) (ts : list athread) : Prop := {
  M1 : match at_mtx s with None => dinv s PIdle | Some i => exists th ph, ts !! i = Some th /\ tphase th = Some ph /\ dinv s ph end;
  M2 : forall i th ph, ts !! i = Some th -> tphase th = Some ph -> at_mtx s = Some i
}.

(** The four kinds of steps. *)
Lemma minv_free s ts i th s' th' : minv s ts -> ts !! i = Some th -> same_data s s' -> at_mtx s' = at_mtx s ->
  tphase th = None -> tphase th' = None -> minv s' (<[i := th']> ts).
Proof.
  intros [H1 H2] Hi Hs Hm Hp Hp'. constructor.
  - rewrite Hm. destruct (at_mtx s) as [j|]; [|eapply dinv_same; eassumption].
    destruct H1 as (u & ph & Hj & Hu & Hd). exists u, ph. split; [|split; [exact Hu|eapply dinv_same; eassumption]].
    rewrite list_lookup_insert_ne; [exact Hj|]. intros ->. congruence.
  - intros j u ph Hj Hu. rewrite Hm. apply list_lookup_insert_Some in Hj as [(_ & <- & _)|[_ Hj]]; [congruence|]. eapply H2; eassumption.
Qed.
Lemma minv_acquire s ts i th s' th' ph : minv s ts -> ts !! i = Some th -> same_data s s' -> at_mtx s = None -> at_mtx s' = Some i ->
  tphase th' = Some ph -> (dinv s' PIdle -> dinv s' ph) -> minv s' (<[i := th']> ts).
Proof.
  intros [H1 H2] Hi Hs Hm Hm' Hp Hd. rewrite Hm in H1. constructor.
  - rewrite Hm'. exists th', ph. split; [apply list_lookup_insert; eapply lookup_lt_Some; exact Hi|]. split; [exact Hp|].
    apply Hd. eapply dinv_same; eassumption.
  - intros j u ph' Hj Hu. rewrite Hm'. apply list_lookup_insert_Some in Hj as [(-> & _ & _)|[_ Hj]]; [reflexivity|].
    specialize (H2 _ _ _ Hj Hu). congruence.
Qed.
Lemma minv_hold s ts i th s' th' ph ph' : minv s ts -> ts !! i = Some th -> at_mtx s' = at_mtx s ->
  tphase th = Some ph -> tphase th' = Some ph' -> (dinv s ph -> dinv s' ph') -> minv s' (<[i := th']> ts).
Proof.
  intros [H1 H2] Hi Hm Hp Hp' Hd. pose proof (H2 _ _ _ Hi Hp) as Hmi. rewrite Hmi in H1. constructor.
  - rewrite Hm, Hmi. exists th', ph'. split; [apply list_lookup_insert; eapply lookup_lt_Some; exact Hi|]. split; [exact Hp'|].
    destruct H1 as (u & q & Hu & Hq & Hdd). apply Hd. assert (q = ph) by congruence. subst. exact Hdd.
  - intros j u q Hj Hu. rewrite Hm. apply list_lookup_insert_Some in Hj as [(-> & _ & _)|[_ Hj]]; [exact Hmi|]. eapply H2; eassumption.
Qed.
Lemma minv_release s ts i th s' th' ph : minv s ts -> ts !! i = Some th -> same_data s s' -> at_mtx s' = None ->
  tphase th = Some ph -> tphase th' = None -> (dinv s ph -> dinv s PIdle) -> minv s' (<[i := th']> ts).
Proof.
  intros [H1 H2] Hi Hs Hm Hp Hp' Hd. pose proof (H2 _ _ _ Hi Hp) as Hmi. rewrite Hmi in H1. constructor.
  - rewrite Hm. destruct H1 as (u & q & Hu & Hq & Hdd). eapply dinv_same; [exact Hs|]. apply Hd. assert (q = ph) by congruence. subst. exact Hdd.
  - intros j u q Hj Hu. apply list_lookup_insert_Some in Hj as [(-> & <- & _)|[Hne Hj]]; [congruence|].
    specialize (H2 _ _ _ Hj Hu). congruence.
Qed.

Lemma same_data_refl s : same_data s s.
Proof. repeat split. Qed.
Lemma same_mtx s m : same_data s (at_set_mtx s m).
Proof. repeat split. Qed.
Lemma same_watch s w b r : same_data s (at_set_watch s w b r).
Proof. repeat split. Qed.
Lemma same_spans s r o : same_data s (at_set_spans s r o).
Proof. repeat split. Qed.

(** Body steps on the data. *)
Lemma body_dinv i t s b ph ph' : bphase t b = Some ph -> b <> B_unlock ->
  (match snd (body_step i t s b) with Some b' => bphase t b' | None => None end) = Some ph' ->
  dinv s ph -> dinv (fst (body_step i t s b)) ph'.
Proof.
  intros Hb Hnu Hb' [H1 H2 H3 H4 H5 H6 H7]. destruct b; cbn in Hb; try discriminate Hb; injection Hb as <-; cbn [body_step] in *.
  - destruct (bool_decide (t ∈ at_existing s)) eqn:E; cbn [orb] in *.
    { cbn in *. injection Hb' as <-. constructor; assumption. }
    destruct (at_stopping s) eqn:Es; cbn in *; injection Hb' as <-; constructor; auto; try (rewrite Es; assumption).
    + intros x Hx. destruct (H3 _ Hx) as [?|Hq]; [auto|discriminate Hq].
    + split; [apply bool_decide_eq_false in E; exact E|exact Es].
  - cbn in *. injection Hb' as <-. destruct H5 as [Hn Hs]. constructor; cbn; auto; try congruence.
    + intros x Hx. apply elem_of_union_r, H2, Hx.
    + intros x Hx. apply elem_of_union in Hx as [Hx|Hx]; [right; apply elem_of_singleton in Hx; congruence|].
      destruct (H3 _ Hx) as [?|Hq]; [auto|discriminate Hq].
    + split; [set_solver|]. split; [intros Hl; apply Hn, H2, Hl|exact Hs].
  - cbn in *. injection Hb' as <-. destruct H5 as (Hn & Hl & Hs). constructor; cbn; auto; try congruence.
    + apply NoDup_app. split; [exact H1|]. split; [|apply NoDup_singleton]. intros x Hx Hx'. apply elem_of_list_singleton in Hx'. congruence.
    + intros x Hx. apply elem_of_app in Hx as [Hx|Hx]; [apply H2, Hx|]. apply elem_of_list_singleton in Hx. congruence.
    + intros x Hx. left. apply elem_of_app. destruct (H3 _ Hx) as [?|Hq]; [auto|]. right. apply elem_of_list_singleton. congruence.
    + split; [rewrite app_length; cbn; lia|]. split; [|exact Hs]. rewrite lookup_app_r by lia. rewrite Nat.sub_diag. reflexivity.
    + intros _ k. rewrite app_length. cbn. rewrite elem_of_union, elem_of_singleton, (H6 Hs). lia.
  - cbn in *. injection Hb' as <-. destruct H5 as (Hn & Hl & Hs). constructor; cbn; auto; try congruence.
    + intros x Hx. destruct (H3 _ Hx) as [?|Hq]; [auto|discriminate Hq].
    + rewrite H4, Hn, seq_S. reflexivity.
  - contradiction.
Qed.
Lemma body_mtx_same i t s b : b <> B_lock -> b <> B_unlock -> at_mtx (fst (body_step i t s b)) = at_mtx s.
Proof. destruct b; intros; try contradiction; cbn; try reflexivity. destruct (_ || _); reflexivity. Qed.
Lemma body_next i t s b : b <> B_unlock -> exists b', snd (body_step i t s b) = Some b'.
Proof.
  destruct b; intros; try contradiction; cbn; eauto; [destruct (at_mtx s)|destruct (_ || _)]; cbn; eauto.
Qed.

(** A step of a thread inside the body. *)
Lemma minv_body s ts i th t b (mk : option bpc -> athread) :
  minv s ts -> ts !! i = Some th -> tphase th = bphase t b ->
  (forall b', tphase (mk (Some b')) = bphase t b') -> tphase (mk None) = None ->
  minv (fst (body_step i t s b)) (<[i := mk (snd (body_step i t s b))]> ts).
Proof.
  intros H Hi Hp Hmk Hmk0. destruct b.
  - cbn. destruct (at_mtx s) as [m|] eqn:Em; cbn.
    + eapply minv_free; [exact H|exact Hi|apply same_data_refl|reflexivity|exact Hp|apply Hmk].
    + eapply minv_acquire; [exact H|exact Hi|apply same_mtx|exact Em|reflexivity|exact (Hmk B_check)|auto].
  - set (b := B_check) in *. destruct (body_next i t s b) as [b' E]; [discriminate|].
    assert (Hx : exists ph', bphase t b' = Some ph').
    { clear -E. subst b. cbn in E. destruct (_ || _); cbn in E; injection E as <-; eauto. }
    destruct Hx as [ph' Hx].
    eapply minv_hold; [exact H|exact Hi|apply body_mtx_same; discriminate|exact Hp| |].
    + rewrite E, Hmk. exact Hx.
    + apply body_dinv; [reflexivity|discriminate|rewrite E; exact Hx].
  - eapply minv_hold; [exact H|exact Hi|reflexivity|exact Hp|exact (Hmk B_attach)|apply body_dinv; [reflexivity|discriminate|reflexivity]].
  - eapply minv_hold; [exact H|exact Hi|reflexivity|exact Hp|exact (Hmk (B_append _))|apply body_dinv; [reflexivity|discriminate|reflexivity]].
  - eapply minv_hold; [exact H|exact Hi|reflexivity|exact Hp|exact (Hmk B_unlock)|apply body_dinv; [reflexivity|discriminate|reflexivity]].
  - eapply minv_release; [exact H|exact Hi|apply same_mtx|reflexivity|exact Hp|exact Hmk0|auto].
Qed.

Lemma minv_step s ts i th : minv s ts -> ts !! i = Some th -> minv (fst (at_step i s th)) (<[i := snd (at_step i s th)]> ts).
Proof.
  intros H Hi. assert (Hself : <[i := th]> ts = ts) by (apply list_insert_id, Hi).
  destruct th as [c pc]. destruct c as [ord|t| |t o]; destruct pc; unfold at_step; cbn [ah_call ah_pc fst snd];
    try (rewrite Hself; exact H);
    try (eapply minv_free; [exact H|exact Hi|first [apply same_data_refl|apply same_watch]|reflexivity|reflexivity|reflexivity]).
  - destruct (at_begun s); cbn [fst snd]; [rewrite Hself; exact H|].
    eapply minv_free; [exact H|exact Hi|apply same_watch|reflexivity|reflexivity|reflexivity].
  - destruct todo; cbn [fst snd]; (eapply minv_free; [exact H|exact Hi|first [apply same_data_refl|apply same_watch]|reflexivity|reflexivity|reflexivity]).
  - apply (minv_body s ts i _ t b (fun ob => AThr (ASetup ord) (match ob with Some b' => O_in b' t todo | None => O_next todo end)) H Hi); reflexivity.
  - destruct (at_watch s); cbn [fst snd]; (eapply minv_free; [exact H|exact Hi|apply same_data_refl|reflexivity|reflexivity|reflexivity]).
  - apply (minv_body s ts i _ t b (fun ob => AThr (ATrace t) (match ob with Some b' => T_in b' | None => T_done true end)) H Hi); reflexivity.
  - destruct (at_returned s); cbn [fst snd]; [|rewrite Hself; exact H].
    eapply minv_free; [exact H|exact Hi|apply same_data_refl|reflexivity|reflexivity|reflexivity].
  - destruct (at_mtx s) eqn:Em; cbn [fst snd]; [rewrite Hself; exact H|].
    eapply minv_acquire; [exact H|exact Hi|apply same_mtx|exact Em|reflexivity|reflexivity|auto].
  - eapply minv_hold; [exact H|exact Hi|reflexivity|reflexivity|reflexivity|].
    intros [H1 H2 H3 H4 H5 H6 H7]. constructor; cbn; auto; try congruence.
    + intros x Hx. destruct (H3 _ Hx) as [?|Hq]; [auto|discriminate Hq].
    + intros _ k Hk. destruct (at_stopping s) eqn:Es; [destruct (H7 eq_refl _ Hk)|]. apply (H6 eq_refl), Hk.
  - eapply minv_hold; [exact H|exact Hi|reflexivity|reflexivity|reflexivity|].
    intros [H1 H2 H3 H4 H5 H6 H7]. constructor; cbn; auto; try congruence.
    + intros x Hx. destruct (H3 _ Hx) as [?|Hq]; [auto|discriminate Hq].
    + intros Hs k Hk. rewrite H4. apply elem_of_seq. specialize (H7 Hs _ Hk). cbn in H7. lia.
  - destruct todo as [|k todo]; cbn [fst snd].
    + eapply minv_hold; [exact H|exact Hi|reflexivity|reflexivity|reflexivity|].
      intros [H1 H2 H3 H4 H5 H6 H7]. constructor; cbn; auto; try congruence.
      * intros x Hx. destruct (H3 _ Hx) as [?|Hq]; [auto|discriminate Hq].
      * intros Hs k Hk. specialize (H7 Hs _ Hk). cbn in H7. inversion H7.
    + eapply minv_hold; [exact H|exact Hi|reflexivity|reflexivity|reflexivity|].
      intros [H1 H2 H3 H4 H5 H6 H7]. constructor; cbn; auto; try congruence.
      * intros x Hx. destruct (H3 _ Hx) as [?|Hq]; [auto|discriminate Hq].
      * intros Hs j Hj. apply elem_of_difference in Hj as [Hj Hn]. specialize (H7 Hs _ Hj). cbn in H7.
        apply elem_of_cons in H7 as [->|?]; [|assumption]. exfalso. apply Hn, elem_of_singleton. reflexivity.
  - eapply minv_release; [exact H|exact Hi|apply same_mtx|reflexivity|reflexivity|reflexivity|auto].
  - destruct o; (eapply minv_free; [exact H|exact Hi|apply same_spans|reflexivity|reflexivity|reflexivity]).
  - destruct o; (eapply minv_free; [exact H|exact Hi|apply same_spans|reflexivity|reflexivity|reflexivity]).
Qed.

Lemma minv_new : minv at_new [].
Proof.
  constructor; cbn.
  - constructor; cbn [at_new at_log at_existing at_cancelers at_stopping at_attached].
    + constructor.
    + intros x Hx. inversion Hx.
    + intros x Hx. apply elem_of_empty in Hx. destruct Hx.
    + reflexivity.
    + exact I.
    + intros _ k. cbn. rewrite elem_of_empty. lia.
    + discriminate.
  - intros i th ph Hi. discriminate Hi.
Qed.
Lemma minv_spawn s ts c : minv s ts -> minv s (ts ++ [at_start c]).
Proof.
  intros [H1 H2]. constructor.
  - destruct (at_mtx s) as [i|]; [|exact H1]. destruct H1 as (th & ph & Hi & Hp & Hd). exists th, ph. split; [apply lookup_app_l_Some, Hi|auto].
  - intros i th ph Hi Hp. apply lookup_app_Some in Hi as [Hi|[Hl Hi]]; [eapply H2; eassumption|].
    destruct (i - length ts)%nat as [|n]; [|destruct n; discriminate Hi]. injection Hi as <-. destruct c; discriminate Hp.
Qed.
Lemma minv_exec sched : minv (shared (at_exec sched)) (threads (at_exec sched)).
Proof.
  apply (exec_inv at_start at_step minv at_new).
  - apply minv_new.
  - intros s ts c. apply minv_spawn.
  - intros s ts i t. apply minv_step.
Qed.
Lemma minv_data s ts : minv s ts -> exists ph, dinv s ph.
Proof. intros [H1 _]. destruct (at_mtx s); [destruct H1 as (th & ph & _ & _ & Hd); eauto|eauto]. Qed.
Lemma minv_mine s ts i th ph : minv s ts -> ts !! i = Some th -> tphase th = Some ph -> dinv s ph.
Proof.
  intros H Hi Hp. pose proof (M2 _ _ H _ _ _ Hi Hp) as Hm. pose proof (M1 _ _ H) as H1. rewrite Hm in H1.
  destruct H1 as (u & q & Hu & Hq & Hd). assert (q = ph) by congruence. subst. exact Hd.
Qed.

(** What never goes back. *)
Definition forward (s s' : allt) : Prop :=
  (exists Q, at_log s' = at_log s ++ Q) /\ (at_stopping s = true -> at_stopping s' = true) /\
  (at_stopping s = true -> at_log s' = at_log s /\ forall k, k ∈ at_attached s' -> k ∈ at_attached s).
Lemma forward_same s s' : same_data s s' -> forward s s'.
Proof.
  intros (E1 & E2 & E3 & E4 & E5). split; [exists []; rewrite app_nil_r; exact E1|]. rewrite E1, E4, E5. auto.
Qed.
Lemma forward_body s ts i th t b : minv s ts -> ts !! i = Some th -> tphase th = bphase t b -> forward s (fst (body_step i t s b)).
Proof.
  intros H Hi Hp. destruct b; cbn.
  - destruct (at_mtx s); apply forward_same; [apply same_data_refl|apply same_mtx].
  - destruct (_ || _); apply forward_same, same_data_refl.
  - split; [exists []; rewrite app_nil_r; reflexivity|]. cbn. auto.
  - split; [cbn; eauto|]. cbn. split; [auto|].
    pose proof (minv_mine _ _ _ _ _ H Hi Hp) as Hd. destruct (D5 _ _ Hd) as (_ & _ & Hs). rewrite Hs. discriminate.
  - split; [exists []; rewrite app_nil_r; reflexivity|]. cbn. auto.
  - apply forward_same, same_mtx.
Qed.
Lemma forward_step s ts i th : minv s ts -> ts !! i = Some th -> forward s (fst (at_step i s th)).
Proof.
  intros H Hi. destruct th as [c pc]. destruct c as [ord|t| |t o]; destruct pc; unfold at_step; cbn [ah_call ah_pc fst snd];
    try (apply forward_same, same_data_refl); try (apply forward_same, same_watch); try (apply forward_same, same_mtx).
  - destruct (at_begun s); apply forward_same; [apply same_data_refl|apply same_watch].
  - destruct todo; apply forward_same; [apply same_watch|apply same_data_refl].
  - eapply forward_body; [exact H|exact Hi|reflexivity].
  - destruct (at_watch s); apply forward_same, same_data_refl.
  - eapply forward_body; [exact H|exact Hi|reflexivity].
  - destruct (at_returned s); apply forward_same, same_data_refl.
  - destruct (at_mtx s); apply forward_same; [apply same_data_refl|apply same_mtx].
  - split; [exists []; rewrite app_nil_r; reflexivity|]. cbn. auto.
  - destruct todo; [apply forward_same, same_data_refl|].
    split; [exists []; rewrite app_nil_r; reflexivity|]. cbn. split; [auto|]. intros _. split; [reflexivity|]. set_solver.
  - destruct o; apply forward_same, same_spans.
  - destruct o; apply forward_same, same_spans.
Qed.

(** Trace [t] is taken care of. *)
Definition handled (s : allt) (t : nat) : Prop := t ∈ at_log s \/ at_stopping s = true.
Lemma handled_forward s s' t : forward s s' -> handled s t -> handled s' t.
Proof. intros ([Q E] & Hs & _) [H|H]; [left; rewrite E; apply elem_of_app; auto|right; auto]. Qed.
Lemma body_handled s ts i th t b : minv s ts -> ts !! i = Some th -> tphase th = bphase t b ->
  (b = B_unlock -> handled s t) ->
  match snd (body_step i t s b) with
  | Some B_unlock | None => handled (fst (body_step i t s b)) t
  | _ => True
  end.
Proof.
  intros H Hi Hp Hu. destruct b; cbn; try exact I.
  - destruct (at_mtx s); exact I.
  - destruct (bool_decide (t ∈ at_existing s)) eqn:E; cbn.
    + left. apply bool_decide_eq_true in E. pose proof (minv_mine _ _ _ _ _ H Hi Hp) as Hd. destruct (D3 _ _ Hd _ E) as [?|Hq]; [assumption|discriminate Hq].
    + destruct (at_stopping s) eqn:Es; cbn; [right; exact Es|exact I].
  - left. cbn. pose proof (minv_mine _ _ _ _ _ H Hi Hp) as Hd. destruct (D5 _ _ Hd) as (_ & Hk & _). eapply elem_of_list_lookup_2; exact Hk.
  - apply Hu. reflexivity.
Qed.

(** Local facts. *)
Definition lok (s : allt) (ts : list athread) (i : nat) (th : athread) : Prop :=
  match ah_call th, ah_pc th with
  | ASetup _, (O_register | O_roots | O_orphans _ | O_next _ | O_done) => True
  | ASetup _, O_in b t _ => b = B_unlock -> handled s t
  | ASetup _, _ => False
  | ATrace _, (T_load | T_done false) => True
  | ATrace t, T_in b => b = B_unlock -> handled s t
  | ATrace t, T_done true => handled s t
  | ATrace _, _ => False
  | ACancel, (K_start | K_main | K_lock | K_stop) => True
  | ACancel, (K_range | K_cancel _ | K_unlock) => at_stopping s = true
  | ACancel, K_done => at_stopping s = true /\ forall k, k ∉ at_attached s
  | ACancel, _ => False
  | ASpan t false, S_running => at_roots s !! i = Some t
  | ASpan t true, S_running => at_orphans s !! i = Some t
  | ASpan _ _, (S_join | S_done) => True
  | ASpan _ _, _ => False
  end.
Definition begun_cancel (ts : list athread) : Prop := exists c pc, ts !! c = Some (AThr ACancel pc) /\ pc <> K_start.
Record ainv (s : allt) (ts : list athread) : Prop := {
  A1 : minv s ts;
  A2 : forall i th, ts !! i = Some th -> lok s ts i th;
  A3 : at_stopping s = true -> begun_cancel ts;
  A4 : (exists i ord pc, ts !! i = Some (AThr (ASetup ord) pc) /\ pc <> O_register) -> at_watch s = true \/ begun_cancel ts
}.

Lemma at_step_call i s th : ah_call (snd (at_step i s th)) = ah_call th.
Proof.
  destruct th as [c pc]. destruct c as [ord|t| |t o]; destruct pc; unfold at_step; cbn [ah_call ah_pc]; try reflexivity.
  - destruct (at_begun s); reflexivity.
  - destruct todo; reflexivity.
  - destruct (at_watch s); reflexivity.
  - destruct (at_returned s); reflexivity.
  - destruct (at_mtx s); reflexivity.
  - destruct todo; reflexivity.
Qed.
Lemma begun_cancel_step s ts i th : ts !! i = Some th -> begun_cancel ts -> begun_cancel (<[i := snd (at_step i s th)]> ts).
Proof.
  intros Hi (c & pc & Hc & Hp). exists c. destruct (decide (c = i)) as [->|Hne].
  - assert (th = AThr ACancel pc) by congruence. subst th. rewrite list_lookup_insert by (eapply lookup_lt_Some; exact Hi).
    destruct pc; unfold at_step; cbn [ah_call ah_pc snd]; try (eexists; split; [reflexivity|discriminate]); try (eexists; split; [reflexivity|exact Hp]).
    + congruence.
    + destruct (at_mtx s); eexists; (split; [reflexivity|discriminate]).
    + destruct todo; eexists; (split; [reflexivity|discriminate]).
  - exists pc. rewrite list_lookup_insert_ne by congruence. auto.
Qed.

Lemma roots_other s i th j : i <> j ->
  at_roots (fst (at_step i s th)) !! j = at_roots s !! j /\ at_orphans (fst (at_step i s th)) !! j = at_orphans s !! j.
Proof.
  intros Hne. assert (Hb : forall t b, at_roots (fst (body_step i t s b)) = at_roots s /\ at_orphans (fst (body_step i t s b)) = at_orphans s).
  { intros t b. destruct b; cbn; auto; [destruct (at_mtx s)|destruct (_ || _)]; auto. }
  destruct th as [c pc]. destruct c as [ord|t| |t o]; destruct pc; unfold at_step; cbn [ah_call ah_pc fst]; auto.
  - destruct (at_begun s); auto.
  - destruct todo; auto.
  - destruct (Hb t b) as [-> ->]. auto.
  - destruct (at_watch s); auto.
  - destruct (Hb t b) as [-> ->]. auto.
  - destruct (at_returned s); auto.
  - destruct (at_mtx s); auto.
  - destruct todo; auto.
  - destruct o; cbn; rewrite ?lookup_insert_ne by congruence; auto.
  - destruct o; cbn; rewrite ?lookup_delete_ne by congruence; auto.
Qed.

Lemma lok_other s ts ts' i th j u : minv s ts -> ts !! i = Some th -> i <> j -> lok s ts j u -> lok (fst (at_step i s th)) ts' j u.
Proof.
  intros H Hi Hne Hl. pose proof (forward_step _ _ _ _ H Hi) as Hf. destruct (roots_other s i th j Hne) as [Er Eo].
  destruct u as [c pc]. unfold lok in *. cbn [ah_call ah_pc] in *.
  assert (Hh : forall t, handled s t -> handled (fst (at_step i s th)) t) by (intros; eapply handled_forward; eassumption).
  destruct Hf as (_ & Hs & Hs2).
  destruct c as [ord|t| |t o]; destruct pc as [| | | |b x y| | |b|w| | | | | | | |  | | |]; auto.
  - destruct w; auto.
  - destruct Hl as [Ha Hb]. split; [auto|]. intros k Hk. apply (Hb k). apply Hs2; assumption.
  - destruct o; rewrite ?Er, ?Eo; exact Hl.
Qed.

Lemma lok_self s ts ts' i th : ainv s ts -> ts !! i = Some th -> lok (fst (at_step i s th)) ts' i (snd (at_step i s th)).
Proof.
  intros H Hi. pose proof (A1 _ _ H) as Hm. pose proof (A2 _ _ H _ _ Hi) as Hl.
  destruct th as [c pc]. destruct c as [ord|t| |t o]; destruct pc; unfold lok in Hl; cbn [ah_call ah_pc] in Hl; try contradiction;
    unfold at_step; cbn [ah_call ah_pc fst snd]; try exact I; try exact Hl.
  - destruct (at_begun s); exact I.
  - destruct todo; cbn; [exact I|discriminate].
  - pose proof (body_handled s ts i _ t b Hm Hi eq_refl Hl) as Hx.
    destruct (snd (body_step i t s b)) as [b'|]; cbn; [|exact I]. intros ->. exact Hx.
  - destruct (at_watch s); cbn; [discriminate|exact I].
  - pose proof (body_handled s ts i _ t b Hm Hi eq_refl Hl) as Hx.
    destruct (snd (body_step i t s b)) as [b'|]; cbn; [|exact Hx]. intros ->. exact Hx.
  - destruct (at_returned s); exact I.
  - destruct (at_mtx s); exact I.
  - reflexivity.
  - destruct todo; exact Hl.
  - unfold lok. cbn. split; [exact Hl|]. intros k Hk. pose proof (minv_mine _ _ _ _ _ Hm Hi eq_refl) as Hd. exact (D7 _ _ Hd Hl _ Hk).
  - destruct o; unfold lok; cbn; apply lookup_insert.
  - destruct o; exact I.
Qed.

Lemma ainv_step s ts i th : ainv s ts -> ts !! i = Some th -> ainv (fst (at_step i s th)) (<[i := snd (at_step i s th)]> ts).
Proof.
  intros H Hi. pose proof (A1 _ _ H) as Hm. assert (Hlt : (i < length ts)%nat) by (eapply lookup_lt_Some; exact Hi). constructor.
  - apply minv_step; assumption.
  - intros j u Hj. apply list_lookup_insert_Some in Hj as [(<- & <- & _)|[Hne Hj]].
    + eapply lok_self; eassumption.
    + eapply lok_other; [exact Hm|exact Hi|exact Hne|apply (A2 _ _ H _ _ Hj)].
  - intros Hs. destruct (at_stopping s) eqn:Es; [apply begun_cancel_step; [exact Hi|apply (A3 _ _ H Es)]|].
    assert (Hk : th = AThr ACancel K_stop).
    { pose proof (A2 _ _ H _ _ Hi) as Hl. clear -Hs Es Hl.
      assert (Hb : forall t b, at_stopping (fst (body_step i t s b)) = at_stopping s) by (intros t b; destruct b; cbn; try reflexivity; [destruct (at_mtx s)|destruct (_ || _)]; reflexivity).
      destruct th as [c pc]. destruct c as [ord|t| |t o]; destruct pc; unfold at_step in Hs; cbn [ah_call ah_pc fst] in Hs; try congruence; try (rewrite Hb in Hs; congruence).
      all: try (exfalso; clear Hb Hl; repeat match type of Hs with context [if ?x then _ else _] => destruct x | context [match ?x with None => _ | Some _ => _ end] => destruct x | context [match ?x with [] => _ | _ :: _ => _ end] => destruct x end; cbn in Hs; congruence).
    }
    subst th. exists i. eexists. rewrite list_lookup_insert by exact Hlt. split; [reflexivity|discriminate].
  - intros (j & ord & pc & Hj & Hpc).
    destruct (at_watch (fst (at_step i s th))) eqn:Ew; [auto|]. right.
    assert (Hreg : exists i ord pc, ts !! i = Some (AThr (ASetup ord) pc) /\ pc <> O_register).
    { apply list_lookup_insert_Some in Hj as [(<- & E & _)|[Hne Hj]]; [|eauto].
      exists i, ord. destruct th as [c pc0]. pose proof (at_step_call i s (AThr c pc0)) as Ec. rewrite E in Ec. cbn in Ec. subst c.
      exists pc0. split; [exact Hi|]. intros ->. unfold at_step in E, Ew. cbn [ah_call ah_pc] in E, Ew.
      destruct (at_begun s); cbn in E, Ew; [|discriminate Ew]. apply (f_equal ah_pc) in E. cbn in E. congruence. }
    destruct (A4 _ _ H Hreg) as [Hw|Hb]; [|apply begun_cancel_step; assumption].
    assert (Hk : th = AThr ACancel K_main).
    { clear -Hw Ew.
      assert (Hb : forall t b, at_watch (fst (body_step i t s b)) = at_watch s) by (intros t b; destruct b; cbn; try reflexivity; [destruct (at_mtx s)|destruct (_ || _)]; reflexivity).
      destruct th as [c pc]. destruct c as [ord|t| |t o]; destruct pc; unfold at_step in Ew; cbn [ah_call ah_pc fst] in Ew; try congruence; try (rewrite Hb in Ew; congruence).
      all: try (exfalso; clear Hb; repeat match type of Ew with context [if ?x then _ else _] => destruct x eqn:? | context [match ?x with None => _ | Some _ => _ end] => destruct x eqn:? | context [match ?x with [] => _ | _ :: _ => _ end] => destruct x eqn:? end; cbn in Ew; congruence). }
    subst th. exists i. eexists. rewrite list_lookup_insert by exact Hlt. split; [reflexivity|discriminate].
Qed.
Lemma at_lookup_snoc ts c i th : (ts ++ [at_start c]) !! i = Some th -> ts !! i = Some th \/ th = at_start c.
Proof.
  intros Hi. apply lookup_app_Some in Hi as [Hi|[Hl Hi]]; [auto|]. right.
  destruct (i - length ts)%nat as [|n]; [|destruct n; discriminate Hi]. cbn in Hi. congruence.
Qed.
Lemma lok_ts s ts ts' i th : lok s ts i th -> lok s ts' i th.
Proof. exact id. Qed.
Lemma begun_cancel_spawn ts c : begun_cancel ts -> begun_cancel (ts ++ [at_start c]).
Proof. intros (k & pc & Hk & Hp). exists k, pc. split; [apply lookup_app_l_Some, Hk|exact Hp]. Qed.
Lemma ainv_spawn s ts c : ainv s ts -> ainv s (ts ++ [at_start c]).
Proof.
  intros H. constructor.
  - apply minv_spawn, (A1 _ _ H).
  - intros i th Hi. apply at_lookup_snoc in Hi as [Hi| ->]; [apply (A2 _ _ H _ _ Hi)|]. destruct c as [o|t| |t []]; exact I.
  - intros Hs. apply begun_cancel_spawn, (A3 _ _ H Hs).
  - intros (i & ord & pc & Hi & Hp). destruct (A4 _ _ H) as [?|?]; [|auto|right; apply begun_cancel_spawn; assumption].
    apply at_lookup_snoc in Hi as [Hi|E]; [eauto|]. apply (f_equal ah_pc) in E as E2; destruct c; try discriminate E; cbn in E2; congruence.
Qed.
Lemma ainv_exec sched : ainv (shared (at_exec sched)) (threads (at_exec sched)).
Proof.
  apply (exec_inv at_start at_step ainv at_new).
  - constructor; [apply minv_new|intros i th Hi; discriminate Hi|discriminate|intros (i & o & p & Hi & _); discriminate Hi].
  - intros s ts c. apply ainv_spawn.
  - intros s ts i t. apply ainv_step.
Qed.

Lemma attached_once sched : NoDup (at_log (shared (at_exec sched))).
Proof. destruct (minv_data _ _ (minv_exec sched)) as [ph Hd]. apply (D1 _ _ Hd). Qed.

Lemma handled_attached sched t : handled (shared (at_exec sched)) t -> ~ cancel_begun sched -> attached sched t.
Proof.
  intros Hh Hc. pose proof (ainv_exec sched) as H. destruct (minv_data _ _ (A1 _ _ H)) as [ph Hd].
  assert (Hs : at_stopping (shared (at_exec sched)) = false).
  { destruct (at_stopping _) eqn:E; [|reflexivity]. destruct (Hc (A3 _ _ H E)). }
  destruct Hh as [Hl|?]; [|congruence]. apply elem_of_list_lookup in Hl as [k Hk]. exists k. split; [|exact Hk].
  apply (D6 _ _ Hd Hs). eapply lookup_lt_Some; exact Hk.
Qed.

Lemma cancel_final sched more t : cancel_returned sched -> ~ attached (sched ++ more) t /\ at_log (shared (at_exec (sched ++ more))) = at_log (shared (at_exec sched)).
Proof.
  intros (c & Hc). enough (H : at_stopping (shared (at_exec (sched ++ more))) = true /\ (forall k, k ∉ at_attached (shared (at_exec (sched ++ more)))) /\
     at_log (shared (at_exec (sched ++ more))) = at_log (shared (at_exec sched))).
  { split; [|apply H]. intros (k & Hk & _). destruct H as (_ & H & _). exact (H _ Hk). }
  induction more as [|a more IH] using rev_ind.
  - rewrite app_nil_r. destruct (A2 _ _ (ainv_exec sched) _ _ Hc) as [H1 H2]. auto.
  - rewrite app_assoc. pose proof (minv_exec (sched ++ more)) as Hm. unfold at_exec in *. destruct a as [a|j].
    + rewrite exec_spawn. exact IH.
    + destruct (threads (exec at_start at_step at_new (sched ++ more)) !! j) as [u|] eqn:Eu.
      * rewrite (exec_run _ _ _ _ _ _ Eu). cbn. destruct (forward_step _ _ _ _ Hm Eu) as (_ & Hs & Hs2). destruct IH as (I1 & I2 & I3).
        destruct (Hs2 I1) as [El Ha]. split; [auto|]. split; [intros k Hk; apply (I2 k), Ha, Hk|congruence].
      * rewrite (exec_run_none _ _ _ _ _ Eu). exact IH.
Qed.

(** A new trace. *)
Lemma trace_attached_gen pre p post : trace_not_begun pre p -> setup_registered pre ->
  setup_registered (pre ++ post) /\
  forall t w, at_thread (pre ++ post) p (AThr (ATrace t) (T_done w)) -> w = true \/ cancel_begun (pre ++ post).
Proof.
  intros Hnb Hreg. induction post as [|a post IH] using rev_ind.
  - rewrite app_nil_r. split; [exact Hreg|]. intros t w Ht. specialize (Hnb _ Ht). discriminate Hnb.
  - rewrite app_assoc. pose proof (ainv_exec (pre ++ post)) as H. unfold at_thread, setup_registered, cancel_begun, at_exec in *. unfold at_thread, at_exec in *.
    destruct IH as [IH1 IH2]. destruct a as [a|j].
    + rewrite exec_spawn. cbn. split.
      * destruct IH1 as (i & ord & pc & Hi & Hp). exists i, ord, pc. split; [apply lookup_app_l_Some, Hi|exact Hp].
      * intros t w Ht. apply at_lookup_snoc in Ht as [Ht|E]; [|destruct a; discriminate E]. destruct (IH2 _ _ Ht) as [?|Hb]; [auto|right; apply begun_cancel_spawn, Hb].
    + destruct (threads (exec at_start at_step at_new (pre ++ post)) !! j) as [u|] eqn:Eu.
      2: { rewrite (exec_run_none _ _ _ _ _ Eu). auto. }
      rewrite (exec_run _ _ _ _ _ _ Eu). cbn. split.
      * destruct IH1 as (i & ord & pc & Hi & Hp). destruct (decide (i = j)) as [->|Hne].
        -- assert (u = AThr (ASetup ord) pc) by congruence. subst u. exists j, ord. rewrite list_lookup_insert by (eapply lookup_lt_Some; exact Eu).
           destruct pc; unfold at_step; cbn [ah_call ah_pc snd]; try congruence; try (eexists; split; [reflexivity|discriminate]).
           ++ destruct todo; eexists; (split; [reflexivity|discriminate]).
           ++ destruct (snd (body_step _ _ _ _)); eexists; (split; [reflexivity|discriminate]).
        -- exists i, ord, pc. rewrite list_lookup_insert_ne by congruence. auto.
      * intros t w Ht. apply list_lookup_insert_Some in Ht as [(-> & E & _)|[Hne Ht]].
        2: { destruct (IH2 _ _ Ht) as [?|Hb]; [auto|right; apply begun_cancel_step; [exact Eu|exact Hb]]. }
        set (s := shared (exec at_start at_step at_new (pre ++ post))) in *. set (ts := threads (exec at_start at_step at_new (pre ++ post))) in *.
        assert (Hbc : begun_cancel ts -> begun_cancel (<[p := snd (at_step p s u)]> ts)) by (apply begun_cancel_step; exact Eu).
        destruct u as [c pc]. pose proof (at_step_call p s (AThr c pc)) as Ec. rewrite E in Ec. cbn in Ec. subst c.
        destruct (decide (w = true)) as [->|Hw']; [auto|]. right. apply Hbc. clear Hbc.
        unfold at_step in E. cbn [ah_call ah_pc] in E. destruct pc; cbn [snd] in E; try (apply (f_equal ah_pc) in E; discriminate E).
        -- destruct (A4 _ _ H) as [Hw|Hb].
           ++ destruct IH1 as (i & ord & pc & Hi & Hp). exists i, ord, pc. auto.
           ++ fold s in Hw. rewrite Hw in E. apply (f_equal ah_pc) in E. discriminate E.
           ++ exact Hb.
        -- apply (f_equal ah_pc) in E. cbn in E. destruct (snd (body_step _ _ _ _)); [discriminate E|]. congruence.
        -- apply (f_equal ah_pc) in E. cbn in E. assert (watched = w) by congruence. subst. destruct (IH2 _ _ Eu) as [?|Hb]; [contradiction|exact Hb].
Qed.

Lemma trace_attached sched pre post p t : sched = pre ++ post -> trace_not_begun pre p -> setup_registered pre ->
  trace_observed sched p t -> ~ cancel_begun sched -> attached sched t.
Proof.
  intros -> Hnb Hreg (w & Ht) Hc. destruct (trace_attached_gen pre p post Hnb Hreg) as [_ H]. destruct (H _ _ Ht) as [->|?]; [|contradiction].
  apply handled_attached; [|exact Hc]. exact (A2 _ _ (ainv_exec (pre ++ post)) _ _ Ht).
Qed.

(** Running roots. *)
Definition scanok (s : allt) (t : nat) (o : bool) (pc : apc) : Prop :=
  match pc with
  | O_orphans rs => o = false -> t ∈ rs
  | O_next todo => t ∈ todo \/ handled s t
  | O_in b x todo => t = x \/ t ∈ todo \/ handled s t
  | O_done => handled s t
  | _ => True
  end.
Lemma root_attached_gen pre i j t o post : setup_unscanned pre i -> at_thread pre j (AThr (ASpan t o) S_running) -> at_orders (pre ++ post) ->
  at_thread (pre ++ post) j (AThr (ASpan t o) S_done) \/
  (at_thread (pre ++ post) j (AThr (ASpan t o) S_running) /\
    forall ord pc, at_thread (pre ++ post) i (AThr (ASetup ord) pc) -> scanok (shared (at_exec (pre ++ post))) t o pc).
Proof.
  intros Hun Hrun. induction post as [|a post IH] using rev_ind; intros Ho.
  - rewrite app_nil_r in *. right. split; [exact Hrun|]. intros ord pc Hp. destruct Hun as (ord' & pc' & Hi & Hpc).
    unfold at_thread in *. assert (AThr (ASetup ord) pc = AThr (ASetup ord') pc') as E by congruence. apply (f_equal ah_pc) in E. cbn in E. subst pc'. destruct Hpc as [-> | ->]; exact I.
  - rewrite app_assoc in *. pose proof (ainv_exec (pre ++ post)) as H. unfold at_orders, at_thread, at_exec in *. destruct a as [a|k].
    + rewrite exec_spawn in *. cbn in *.
      destruct IH as [IH|[Hj Hs]]; [intros x ord pc Hx; apply (Ho x ord pc), lookup_app_l_Some, Hx|left; apply lookup_app_l_Some, IH|].
      right. split; [apply lookup_app_l_Some, Hj|]. intros ord pc Hp. apply at_lookup_snoc in Hp as [Hp|E]; [eapply Hs; exact Hp|].
      destruct a; cbn in E; try discriminate E. apply (f_equal ah_pc) in E. cbn in E. subst. exact I.
    + destruct (threads (exec at_start at_step at_new (pre ++ post)) !! k) as [u|] eqn:Eu.
      2: { rewrite (exec_run_none _ _ _ _ _ Eu) in *. auto. }
      rewrite (exec_run _ _ _ _ _ _ Eu) in *. cbn in *. set (s := shared (exec at_start at_step at_new (pre ++ post))) in *.
      set (ts := threads (exec at_start at_step at_new (pre ++ post))) in *. assert (Hlt : (k < length ts)%nat) by (eapply lookup_lt_Some; exact Eu).
      assert (Hord : forall x ord pc, ts !! x = Some (AThr (ASetup ord) pc) -> any_order ord).
      { intros x ord pc Hx. destruct (decide (x = k)) as [->|Hne].
        - assert (u = AThr (ASetup ord) pc) by congruence. subst u. destruct (at_step k s (AThr (ASetup ord) pc)) as [s' [c' pc']] eqn:E.
          pose proof (at_step_call k s (AThr (ASetup ord) pc)) as Ec. rewrite E in Ec. cbn in Ec. subst c'.
          apply (Ho k ord pc'). rewrite list_lookup_insert by exact Hlt. reflexivity.
        - apply (Ho x ord pc). rewrite list_lookup_insert_ne by congruence. exact Hx. }
      destruct (IH Hord) as [IHd|[Hj Hs]].
      { left. destruct (decide (j = k)) as [->|Hne]; [|rewrite list_lookup_insert_ne by congruence; exact IHd].
        assert (u = AThr (ASpan t o) S_done) by congruence. subst u. rewrite list_lookup_insert by exact Hlt. reflexivity. }
      destruct (decide (j = k)) as [->|Hjk].
      { left. assert (u = AThr (ASpan t o) S_running) by congruence. subst u. rewrite list_lookup_insert by exact Hlt. reflexivity. }
      right. split; [rewrite list_lookup_insert_ne by congruence; exact Hj|].
      pose proof (forward_step _ _ _ _ (A1 _ _ H) Eu) as Hf. fold s in Hf.
      intros ord pc Hp. apply list_lookup_insert_Some in Hp as [(-> & E & _)|[Hne Hp]].
      2: { specialize (Hs _ _ Hp). unfold scanok in *. destruct pc; auto.
           - destruct Hs as [?|?]; [auto|right; eapply handled_forward; eassumption].
           - destruct Hs as [?|[?|?]]; [auto|auto|right; right; eapply handled_forward; eassumption].
           - eapply handled_forward; eassumption. }
      destruct u as [c pc0]. pose proof (at_step_call i s (AThr c pc0)) as Ec. rewrite E in Ec. cbn in Ec. subst c.
      specialize (Hs _ _ Eu). pose proof (A2 _ _ H _ _ Hj) as Hlive. unfold lok in Hlive. cbn [ah_call ah_pc] in Hlive. fold s in Hlive.
      unfold at_step in E, Hf |- *. cbn [ah_call ah_pc] in E, Hf |- *. destruct pc0; cbn [fst snd] in E, Hf |- *; try (apply (f_equal ah_pc) in E; cbn in E; subst pc; exact Hs).
      * destruct (at_begun s); apply (f_equal ah_pc) in E; cbn in E; subst pc; exact I.
      * apply (f_equal ah_pc) in E; cbn in E; subst pc. cbn. intros ->. unfold traces_of. apply elem_of_list_fmap. exists (j, t). split; [reflexivity|]. apply elem_of_map_to_list, Hlive.
      * apply (f_equal ah_pc) in E; cbn in E; subst pc. cbn. left. rewrite (Hord _ _ _ Eu _). apply elem_of_app. destruct o; [right|left; apply Hs; reflexivity].
        unfold traces_of. apply elem_of_list_fmap. exists (j, t). split; [reflexivity|]. apply elem_of_map_to_list, Hlive.
      * destruct todo as [|x todo]; apply (f_equal ah_pc) in E; cbn in E; subst pc; cbn in *.
        -- destruct Hs as [Hx|?]; [inversion Hx|]. eapply handled_forward; [exact Hf|assumption].
        -- destruct Hs as [Hx|?]; [|auto]. apply elem_of_cons in Hx as [->|?]; auto.
      * pose proof (body_handled s ts i _ t0 b (A1 _ _ H) Eu eq_refl (A2 _ _ H _ _ Eu)) as Hx.
        assert (Hk : t = t0 \/ t ∈ todo \/ handled (fst (body_step i t0 s b)) t).
        { destruct Hs as [?|[?|?]]; [auto|auto|right; right; eapply handled_forward; [exact Hf|assumption]]. }
        apply (f_equal ah_pc) in E. cbn in E. destruct (snd (body_step i t0 s b)) as [b'|]; subst pc; cbn; [exact Hk|].
        destruct Hk as [->|[?|?]]; auto.
Qed.

Lemma root_attached sched pre post i j t : sched = pre ++ post -> at_orders sched -> setup_unscanned pre i -> root_running pre j t ->
  setup_returned sched i -> root_running sched j t -> ~ cancel_begun sched -> attached sched t.
Proof.
  intros -> Ho Hun [o Hrun] [ord Hret] [o' Hend] Hc. apply handled_attached; [|exact Hc].
  destruct (root_attached_gen pre i j t o post Hun Hrun Ho) as [Hd|[_ Hs]].
  - unfold at_thread in *. rewrite Hd in Hend. apply (f_equal (option_map ah_pc)) in Hend. discriminate Hend.
  - exact (Hs _ _ Hret).
Qed.

(** ** After cancel the registry no longer calls the watcher *)
Definition unwatched (s : allt) : Prop := at_watch s = false /\ at_begun s = true.
Definition past_main (pc : apc) : Prop := match pc with K_lock | K_stop | K_range | K_cancel _ | K_unlock | K_done => True | _ => False end.
Record winv (s : allt) (ts : list athread) : Prop := {
  W1 : at_returned s = true -> at_begun s = true;
  W2 : forall c pc, ts !! c = Some (AThr ACancel pc) -> past_main pc -> unwatched s;
  W3 : forall c, ts !! c = Some (AThr ACancel K_main) -> at_returned s = true;
  W4 : forall c ord pc, ts !! c = Some (AThr (ASetup ord) pc) -> pc <> O_register -> at_begun s = true
}.
Lemma body_flags i t s b : at_watch (fst (body_step i t s b)) = at_watch s /\ at_begun (fst (body_step i t s b)) = at_begun s /\ at_returned (fst (body_step i t s b)) = at_returned s.
Proof. destruct b; cbn; try (split_and!; reflexivity); [destruct (at_mtx s)|destruct (_ || _)]; split_and!; reflexivity. Qed.
(** How a step changes the flags. *)
Lemma at_flags i s th : let s' := fst (at_step i s th) in
  (at_watch s' = at_watch s /\ at_begun s' = at_begun s /\ at_returned s' = at_returned s) \/
  (exists ord, th = AThr (ASetup ord) O_register /\ at_begun s = false /\ at_begun s' = true /\ at_returned s' = at_returned s) \/
  (exists ord, th = AThr (ASetup ord) (O_next []) /\ at_watch s' = at_watch s /\ at_begun s' = at_begun s /\ at_returned s' = true) \/
  (th = AThr ACancel K_main /\ at_watch s' = false /\ at_begun s' = at_begun s /\ at_returned s' = at_returned s).
Proof.
  destruct th as [c pc]. destruct c as [ord|t| |t o]; destruct pc; unfold at_step; cbn [ah_call ah_pc fst]; try (left; split_and!; reflexivity).
  - destruct (at_begun s) eqn:E; cbn; [left; split_and!; auto|right; left; eexists; split_and!; try reflexivity; assumption].
  - destruct todo; cbn; [right; right; left; eexists; split_and!; reflexivity|left; split_and!; reflexivity].
  - left. apply body_flags.
  - left. destruct (at_watch s) eqn:E; cbn; split_and!; auto.
  - left. apply body_flags.
  - left. destruct (at_returned s) eqn:E; cbn; split_and!; auto.
  - right; right; right. split_and!; reflexivity.
  - left. destruct (at_mtx s); cbn; split_and!; reflexivity.
  - left. destruct todo; cbn; split_and!; reflexivity.
  - left. destruct o; cbn; split_and!; reflexivity.
  - left. destruct o; cbn; split_and!; reflexivity.
Qed.
Lemma unwatched_step i s th : unwatched s -> unwatched (fst (at_step i s th)).
Proof.
  intros [H1 H2]. unfold unwatched. destruct (at_flags i s th) as [(E1 & E2 & E3)|[(ord & -> & E0 & _)|[(ord & _ & E1 & E2 & _)|(_ & E1 & E2 & _)]]]; [|congruence|..]; rewrite ?E1, ?E2; auto.
Qed.
Lemma unwatched_trace j s t : unwatched s -> snd (at_step j s (AThr (ATrace t) T_load)) = AThr (ATrace t) (T_done false).
Proof. intros [H _]. unfold at_step. cbn [ah_call ah_pc]. rewrite H. reflexivity. Qed.
Lemma pc_dec (p q : apc) : q = K_start \/ q = K_main \/ q = O_register -> p = q \/ p <> q.
Proof. intros [->|[->| ->]]; destruct p; auto; right; discriminate. Qed.
Lemma winv_step s ts i th : winv s ts -> ts !! i = Some th -> winv (fst (at_step i s th)) (<[i := snd (at_step i s th)]> ts).
Proof.
  intros [H1 H2 H3 H4] Hi. pose proof (at_flags i s th) as F. cbv zeta in F. constructor.
  - destruct F as [(_ & E2 & E3)|[(ord & -> & E0 & E2 & E3)|[(ord & -> & _ & E2 & E3)|(_ & _ & E2 & E3)]]]; rewrite ?E2, ?E3; auto.
    intros _. apply (H4 _ _ _ Hi). discriminate.
  - intros c pc Hc Hp. apply list_lookup_insert_Some in Hc as [(<- & E & _)|[Hne Hc]].
    + pose proof (at_step_call i s th) as Ec. rewrite E in Ec. destruct th as [c0 pc0]. cbn in Ec. subst c0.
      destruct (pc_dec pc0 K_start (or_introl eq_refl)) as [->|N1].
      { unfold at_step in E. cbn [ah_call ah_pc] in E. destruct (at_returned s); apply (f_equal ah_pc) in E; cbn in E; subst pc; destruct Hp. }
      destruct (pc_dec pc0 K_main (or_intror (or_introl eq_refl))) as [->|N2].
      { split; [reflexivity|]. apply H1, (H3 _ Hi). }
      apply unwatched_step, (H2 _ _ Hi).
      clear - E N1 N2 Hp. destruct pc0; try exact I; unfold at_step in E; cbn [ah_call ah_pc] in E; apply (f_equal ah_pc) in E; cbn in E; subst pc; try exact Hp; congruence.
    + apply unwatched_step, (H2 _ _ Hc Hp).
  - intros c Hc. apply list_lookup_insert_Some in Hc as [(<- & E & _)|[Hne Hc]].
    + pose proof (at_step_call i s th) as Ec. rewrite E in Ec. destruct th as [c0 pc0]. cbn in Ec. subst c0.
      destruct pc0; unfold at_step in E |- *; cbn [ah_call ah_pc fst] in E |- *; apply (f_equal ah_pc) in E; cbn in E; try discriminate E.
      * destruct (at_returned s) eqn:Er; cbn in E; [exact Er|discriminate E].
      * destruct (at_mtx s); discriminate E.
      * destruct todo; discriminate E.
    + specialize (H3 _ Hc). destruct F as [(_ & _ & E3)|[(ord & _ & _ & _ & E3)|[(ord & _ & _ & _ & E3)|(_ & _ & _ & E3)]]]; congruence.
  - intros c ord pc Hc Hp. apply list_lookup_insert_Some in Hc as [(<- & E & _)|[Hne Hc]].
    + pose proof (at_step_call i s th) as Ec. rewrite E in Ec. destruct th as [c0 pc0]. cbn in Ec. subst c0.
      destruct (pc_dec pc0 O_register (or_intror (or_intror eq_refl))) as [->|N1].
      * unfold at_step in E |- *. cbn [ah_call ah_pc] in E |- *. destruct (at_begun s) eqn:Eb; cbn in E |- *; [exact Eb|reflexivity].
      * specialize (H4 _ _ _ Hi N1). destruct F as [(_ & E2 & _)|[(ord' & _ & E0 & E2 & _)|[(ord' & _ & _ & E2 & _)|(_ & _ & E2 & _)]]]; congruence.
    + specialize (H4 _ _ _ Hc Hp). destruct F as [(_ & E2 & _)|[(ord' & _ & E0 & E2 & _)|[(ord' & _ & _ & E2 & _)|(_ & _ & E2 & _)]]]; congruence.
Qed.
Lemma winv_exec sched : winv (shared (at_exec sched)) (threads (at_exec sched)).
Proof.
  apply (exec_inv at_start at_step winv at_new).
  - constructor; [discriminate|intros c pc H; discriminate H|intros c H; discriminate H|intros c o pc H; discriminate H].
  - intros s ts a [H1 H2 H3 H4]. constructor; [exact H1|..].
    + intros c pc Hc Hp. apply at_lookup_snoc in Hc as [Hc|E]; [apply (H2 _ _ Hc Hp)|]. apply (f_equal ah_pc) in E as E2; destruct a; try discriminate E; cbn in E2; subst pc; destruct Hp.
    + intros c Hc. apply at_lookup_snoc in Hc as [Hc|E]; [apply (H3 _ Hc)|]. destruct a; discriminate E.
    + intros c o pc Hc Hp. apply at_lookup_snoc in Hc as [Hc|E]; [apply (H4 _ _ _ Hc Hp)|]. apply (f_equal ah_pc) in E as E2; destruct a; try discriminate E; cbn in E2; congruence.
  - intros s ts i t. apply winv_step.
Qed.
Lemma cancel_unwatched sched more p t pc : cancel_returned sched -> trace_not_begun sched p ->
  at_thread (sched ++ more) p (AThr (ATrace t) pc) -> pc = T_load \/ pc = T_done false.
Proof.
  intros (c & Hc) Hn. revert t pc.
  enough (H : unwatched (shared (at_exec (sched ++ more))) /\ forall t pc, at_thread (sched ++ more) p (AThr (ATrace t) pc) -> pc = T_load \/ pc = T_done false) by apply H.
  induction more as [|a more IH] using rev_ind.
  - rewrite app_nil_r. split; [apply (W2 _ _ (winv_exec sched) _ _ Hc I)|]. intros t pc H. left. apply (Hn _ H).
  - rewrite app_assoc. destruct IH as [Hu IH]. unfold at_thread, at_exec in *. destruct a as [a|j].
    + rewrite exec_spawn. split; [exact Hu|]. intros t pc H. apply at_lookup_snoc in H as [H|E]; [apply (IH _ _ H)|].
      left. apply (f_equal ah_pc) in E as E2. destruct a; try discriminate E. exact E2.
    + destruct (threads (exec at_start at_step at_new (sched ++ more)) !! j) as [u|] eqn:Eu.
      * rewrite (exec_run _ _ _ _ _ _ Eu). cbn. split; [apply unwatched_step, Hu|]. intros t pc H.
        apply list_lookup_insert_Some in H as [(<- & E & _)|[Hne H]]; [|apply (IH _ _ H)].
        pose proof (at_step_call j (shared (exec at_start at_step at_new (sched ++ more))) u) as Ec. rewrite E in Ec. destruct u as [c0 pc0]. cbn in Ec. subst c0.
        destruct (IH _ _ Eu) as [->| ->].
        -- pose proof (eq_trans (eq_sym E) (unwatched_trace j _ t Hu)) as X. injection X as ->. auto.
        -- apply (f_equal ah_pc) in E. cbn in E. auto.
      * rewrite (exec_run_none _ _ _ _ _ Eu). split; [exact Hu|exact IH].
Qed.
