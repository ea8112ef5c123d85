(** * Libraries that pass the check of LockCheck.v do not deadlock *)
From Verif Require Import RaceModel RaceSpec RaceCheck RaceProofs RaceProofs3 RaceProofs5 RaceProofs6 LockSpec LockCheck.
From stdpp Require Import relations.
From Coq Require Import Lia.

Lemma oless_refl k : oless k k.
Proof. done. Qed.

Lemma oless_trans k1 k2 k3 : oless k1 k2 -> oless k2 k3 -> oless k1 k3.
Proof. intros [A1 A2] [B1 B2]. split; [auto|congruence]. Qed.

Lemma olessb_less k1 k2 : olessb k1 k2 = true -> oless k1 k2.
Proof.
  unfold olessb. intros [H1 H2]%andb_prop. split; [|by apply bool_decide_eq_true in H2].
  intros x c Hx. pose proof (forallb_elem _ _ _ H1 (lookup_cls_in _ _ _ Hx)) as H.
  apply bool_decide_eq_true in H. cbn in H. congruence.
Qed.

Lemma ocommon_less k1 k2 k : ocommon k1 k2 = Some k -> oless k k1 /\ oless k k2.
Proof.
  unfold ocommon. destruct (bool_decide (ohld k1 = ohld k2)) eqn:E; [|done].
  apply bool_decide_eq_true in E. intros [= <-].
  split; (split; cbn; [|done]); intros x c Hx; apply lookup_filter in Hx; apply andb_true_iff in Hx as [H1 H2];
    apply bool_decide_eq_true in H1; apply bool_decide_eq_true in H2; done.
Qed.

(** A goroutine that waits for nobody may take the lock it wants, unless that is a Once. *)
Lemma not_waiting_free s v m o l :
  wants s v m o l -> (~ exists w, waits s v w) -> m <> MO -> free (mem s) m o l.
Proof.
  intros Hw Hn Hm. assert (forall t m', (t, m', o, l) ∈ held (mem s) -> m = MR /\ m' = MR) as H.
  { intros t m' Hin. destruct (decide (m = MR)) as [->|H1]; [destruct (decide (m' = MR)) as [->|H2]; [done|]|];
      (exfalso; apply Hn; eexists t, _, o, l; split; [exact Hw|]; left; exists m'; split; [done|]; by intros [? ?]). }
  destruct m; cbn.
  - intros t m' Hin. by destruct (H t m' Hin).
  - intros t m' Hne Hin. by destruct (H t m' Hin).
  - done.
Qed.

Section proofs.
  Variable rank : string -> string -> option nat.
  Variable quiet : string -> string -> bool.
  Variable L : library.
  Hypothesis ok : ocheck_library rank quiet L = true.
  Local Notation check1 := (ocheck1 rank quiet).
  Local Notation block := (oblock (ocheck1 rank quiet)).

  Inductive owt : octx -> list cmd -> Prop :=
  | owt_nil k : ohld k = [] -> owt k []
  | owt_cons k k0 c b k1 : oless k0 k -> check1 k0 c = Some k1 -> owt k1 b -> owt k (c :: b).

  Lemma owt_less k1 k2 b : oless k1 k2 -> owt k1 b -> owt k2 b.
  Proof.
    intros Hl H. inversion H as [k Hk|k k0 c b' k' H1 H2 H3]; subst.
    - constructor. destruct Hl as [_ Hl]. congruence.
    - econstructor; [by eapply oless_trans|done|done].
  Qed.

  Lemma owt_app k b k1 r : block k b = Some k1 -> owt k1 r -> owt k (b ++ r).
  Proof.
    revert k. induction b as [|c b IH]; intros k; cbn [oblock app]; [by intros [= ->]|].
    destruct (check1 k c) as [k2|] eqn:E; [|done]. intros H Hr.
    econstructor; [apply oless_refl|done|by apply IH].
  Qed.

  (** ** What holds of a call, a goroutine, a state *)

  Definition oclaim (h : heap) (e : list (string * nat)) (x : mode * string * string * string) (y : mode * nat * string) : Prop :=
    x.1.1.1 = y.1.1 /\ lookup_var e x.1.1.2 = Some y.1.2 /\ x.1.2 = y.2 /\ objs h !! y.1.2 = Some x.2.

  Definition ofacts (h : heap) (e : list (string * nat)) (k : octx) : Prop :=
    forall x c, lookup_cls (ocls k) x = Some c -> exists o, lookup_var e x = Some o /\ objs h !! o = Some c.

  Definition oframe (h : heap) (fr : list (string * nat) * list cmd) (cs : list (mode * nat * string)) : Prop :=
    exists k, ofacts h fr.1 k /\ Forall2 (oclaim h fr.1) (ohld k) cs /\ owt k fr.2.

  Definition othread (h : heap) (t : nat) (fs : list (list (string * nat) * list cmd)) : Prop :=
    match fs with
    | [] => of_thread t (held h) = []
    | fr :: rest => exists cs, oframe h fr cs /\ of_thread t (held h) ≡ₚ map (entry t) cs /\
        Forall (fun fr => oframe h fr []) rest
    end.

  Record oinv (s : state) : Prop := {
    o_thr : forall t fs, thr s !! t = Some fs -> othread (mem s) t fs;
    o_held : forall t m o l, (t, m, o, l) ∈ held (mem s) -> t < length (thr s);
    o_glob : forall i g, globals L !! i = Some g -> objs (mem s) !! i = Some g.2;
  }.

  Lemma oframe_ext h h' fr cs : objs h `prefix_of` objs h' -> oframe h fr cs -> oframe h' fr cs.
  Proof.
    intros P (k & H1 & H2 & H3). exists k. split_and!; [| |done].
    - intros x c Hx. destruct (H1 x c Hx) as (o & ? & ?). exists o. split; [done|]. by eapply prefix_look.
    - eapply Forall2_impl; [done|]. intros x y (A & B & C & D). split_and!; try done. by eapply prefix_look.
  Qed.

  Lemma othread_ext h h' t fs : objs h `prefix_of` objs h' -> of_thread t (held h) ≡ₚ of_thread t (held h') ->
    othread h t fs -> othread h' t fs.
  Proof.
    intros P E. destruct fs as [|fr fs]; cbn.
    - intros H. rewrite H in E. by apply Permutation_nil in E.
    - intros (cs & H1 & H2 & H3). exists cs. split_and!; [by eapply oframe_ext|by rewrite <- E|].
      eapply Forall_impl; [done|]. intros x. by apply oframe_ext.
  Qed.

  Lemma not_busy s t fs : thr s !! t = Some fs -> ~ busy s t -> of_thread t (held (mem s)) = [].
  Proof.
    intros _ H. destruct (of_thread t (held (mem s))) as [|[[[t' m] o] l] r] eqn:E; [done|]. exfalso. apply H.
    assert ((t', m, o, l) ∈ of_thread t (held (mem s))) as Hin by (rewrite E; left).
    apply of_thread_in in Hin as [Hin Ht]. cbn in Ht. subst. by exists m, o, l.
  Qed.

  Lemma orebind_inv h e k x c k1 o cs :
    orebind k x c = Some k1 -> ofacts h e k -> Forall2 (oclaim h e) (ohld k) cs -> objs h !! o = Some c ->
    ofacts h ((x, o) :: e) k1 /\ Forall2 (oclaim h ((x, o) :: e)) (ohld k1) cs.
  Proof.
    unfold orebind. destruct (existsb _ (ohld k)) eqn:E; [done|]. intros [= <-] F Hc Ho. cbn [ocls ohld]. split.
    - intros y d. cbn [ocls lookup_cls lookup_var]. destruct (String.eqb y x); [|intros H; exact (F y d H)].
      intros [= <-]. by exists o.
    - clear F. induction Hc as [|a b l l' H Hc IH]; [constructor|]. cbn in E. apply orb_false_iff in E as [E1 E2].
      constructor; [|by apply IH]. destruct H as (A & B & C & D). split_and!; try done.
      cbn [lookup_var]. by rewrite E1.
  Qed.

  Lemma oremove_claims h e m v l o : forall hs hs' cs, oremove m v l hs = Some hs' -> lookup_var e v = Some o ->
    Forall2 (oclaim h e) hs cs -> exists cs', cs ≡ₚ (m, o, l) :: cs' /\ Forall2 (oclaim h e) hs' cs'.
  Proof.
    induction hs as [|x hs IH]; intros hs' cs; cbn [oremove]; [done|]. intros H Hv HF.
    inversion HF as [|? y ? cs0 Hxy HF']; subst.
    destruct (bool_decide (x.1 = (m, v, l))) eqn:E.
    - apply bool_decide_eq_true in E. injection H as <-. exists cs0. split; [|done].
      destruct x as [[[m1 v1] l1] c1], y as [[m2 o2] l2]. cbn in E. injection E as -> -> ->.
      destruct Hxy as (A & B & C & _). cbn in *. rewrite Hv in B. injection B as ->. by subst.
    - destruct (oremove m v l hs) as [hs1|] eqn:E1; [|done]. cbn in H. injection H as <-.
      destruct (IH hs1 cs0 eq_refl Hv HF') as (cs' & Hp & HF2). exists (y :: cs'). split.
      + rewrite Hp. apply perm_swap.
      + by constructor.
  Qed.

  Lemma ocmd h t e c k rest cs oe h' e' b :
    ofacts h e k -> Forall2 (oclaim h e) (ohld k) cs -> owt k (c :: rest) ->
    of_thread t (held h) ≡ₚ map (entry t) cs -> cstep h t e c oe h' e' b ->
    objs h `prefix_of` objs h' /\
    (forall u, u <> t -> of_thread u (held h) ≡ₚ of_thread u (held h')) /\
    (forall u m o l, (u, m, o, l) ∈ held h' -> (u, m, o, l) ∈ held h \/ u = t) /\
    exists cs', oframe h' (e', b ++ rest) cs' /\ of_thread t (held h') ≡ₚ map (entry t) cs'.
  Proof.
    intros F Hc Hw Hh Hs. inversion Hw as [|? k0 ? ? k1 Hl Hck Hr]; subst.
    assert (ofacts h e k0) as F0 by (intros x d Hx; apply F; by apply Hl).
    assert (Forall2 (oclaim h e) (ohld k0) cs) as Hc0 by (destruct Hl as [_ ->]; done).
    clear F Hc Hw Hl k.
    assert (forall h2 k2, objs h2 = objs h -> held h2 = held h -> oless k2 k0 -> owt k2 (b ++ rest) ->
      objs h `prefix_of` objs h2 /\ (forall u, u <> t -> of_thread u (held h) ≡ₚ of_thread u (held h2)) /\
      (forall u m o l, (u, m, o, l) ∈ held h2 -> (u, m, o, l) ∈ held h \/ u = t) /\
      exists cs', oframe h2 (e, b ++ rest) cs' /\ of_thread t (held h2) ≡ₚ map (entry t) cs') as Same.
    { intros h2 k2 E1 E2 Hl2 Hw2. rewrite E1, E2. split_and!; [done|done|by left|].
      exists cs. split; [|done]. exists k0. cbn [fst snd]. split_and!.
      - intros x d Hx. rewrite E1. by apply F0.
      - eapply Forall2_impl; [done|]. intros x y (A & B & C & D). split_and!; try done. by rewrite E1.
      - by eapply owt_less. }
    assert (forall (x c : string) (o : nat) (h2 : heap), orebind k0 x c = Some k1 -> objs h `prefix_of` objs h2 -> held h2 = held h ->
      objs h2 !! o = Some c ->
      objs h `prefix_of` objs h2 /\ (forall u, u <> t -> of_thread u (held h) ≡ₚ of_thread u (held h2)) /\
      (forall u m o l, (u, m, o, l) ∈ held h2 -> (u, m, o, l) ∈ held h \/ u = t) /\
      exists cs', oframe h2 ((x, o) :: e, rest) cs' /\ of_thread t (held h2) ≡ₚ map (entry t) cs') as Bind.
    { intros x c0 o h2 Hb P E2 Ho. rewrite E2. split_and!; [done|done|by left|].
      exists cs. split; [|done]. exists k1. cbn [fst snd].
      destruct (orebind_inv h2 e k0 x c0 k1 o cs Hb) as [A B]; [| |done|].
      - intros y d Hy. destruct (F0 y d Hy) as (o1 & ? & ?). exists o1. split; [done|]. by eapply prefix_look.
      - eapply Forall2_impl; [done|]. intros y z (A & B & C & D). split_and!; try done. by eapply prefix_look.
      - done. }
    destruct Hs as [x c fs cs2 Hst|v f o Hv|v f ys o cs2 Hv Hst|v f x c o o' Hv Hin Ho|a v f ys o cs2 Hv Hst
      |v f x c o o' Hv Hin Ho|m v l o Hv Hf|m v l o held' Hv Hp|v n b|v n b o Hv Hd|b1 b2|b1 b2|b|b|];
      cbn [ocheck1] in Hck.
    - apply (Bind x c (length (objs h)) {| objs := objs h ++ [c]; cont := cs2 ++ cont h; held := held h; done := done h |});
        [done|by exists [c]|done|]. cbn. by apply list_lookup_middle.
    - injection Hck as <-. by eapply Same.
    - injection Hck as <-. by eapply Same.
    - by eapply Bind.
    - injection Hck as <-. by eapply Same.
    - by eapply Bind.
    - (* Lk *)
      unfold otake in Hck. destruct (lookup_cls (ocls k0) v) as [c|] eqn:Ec; [|done].
      destruct (above rank k0 c l); [|done]. injection Hck as <-.
      destruct (F0 _ _ Ec) as (o1 & Ho1 & Ho2). rewrite Hv in Ho1. injection Ho1 as <-.
      cbn [objs held]. split_and!; [done| | |].
      + intros u Hu. unfold of_thread. cbn [List.filter fst]. by destruct (Nat.eqb_spec t u) as [->|].
      + intros u m1 o1 l1 H. apply elem_of_cons in H as [H|H]; [right; congruence|by left].
      + exists ((m, o, l) :: cs). split.
        * exists {| ocls := ocls k0; ohld := (m, v, l, c) :: ohld k0 |}. cbn [fst snd app ohld]. split_and!; [exact F0| |exact Hr].
          constructor; [by split_and!|exact Hc0].
        * unfold of_thread. cbn [List.filter fst map]. rewrite Nat.eqb_refl. by constructor.
    - (* Un *)
      unfold odrop in Hck. destruct (oremove m v l (ohld k0)) as [hs|] eqn:E; [|done]. injection Hck as <-.
      destruct (oremove_claims _ _ _ _ _ _ _ _ _ E Hv Hc0) as (cs' & Hp' & HF').
      unfold release. cbn [objs held]. split_and!; [done| | |].
      + intros u Hu. rewrite (of_thread_perm u _ _ Hp). unfold of_thread at 1. cbn [List.filter fst].
        by destruct (Nat.eqb_spec t u) as [->|].
      + intros u m1 o1 l1 H. left. rewrite Hp. by right.
      + exists cs'. split; [exists {| ocls := ocls k0; ohld := hs |}; by split_and!|].
        rewrite (of_thread_perm t _ _ Hp), Hp' in Hh. unfold of_thread at 1 in Hh. cbn [List.filter fst map] in Hh.
        rewrite Nat.eqb_refl in Hh. by apply Permutation_cons_inv in Hh.
    - (* Once, run *)
      destruct (otake rank k0 MO v n) as [ka|] eqn:Ea; [|done].
      destruct (block ka b) as [kb|] eqn:Eb; [|done].
      destruct (odrop kb MO v n) as [kc|] eqn:Ed; [|done].
      destruct (olessb k0 kc) eqn:El; [|done]. injection Hck as <-. apply olessb_less in El.
      apply (Same h k0); [done|done|apply oless_refl|].
      cbn [app]. eapply owt_cons; [apply oless_refl|cbn [ocheck1]; exact Ea|].
      rewrite <- app_assoc. eapply owt_app; [exact Eb|]. cbn [app].
      eapply owt_cons; [apply oless_refl|cbn [ocheck1]; exact Ed|]. by eapply owt_less.
    - (* Once, pass *)
      destruct (otake rank k0 MO v n) as [ka|] eqn:Ea; [|done].
      destruct (block ka b) as [kb|] eqn:Eb; [|done].
      destruct (odrop kb MO v n) as [kc|] eqn:Ed; [|done].
      destruct (olessb k0 kc) eqn:El; [|done]. injection Hck as <-.
      by apply (Same h k0).
    - destruct (block k0 b1) as [ka|] eqn:E1; [|done]. destruct (block k0 b2) as [kb|] eqn:E2; [|done].
      destruct (ocommon_less _ _ _ Hck) as [H1 H2].
      apply (Same h k0); [done|done|apply oless_refl|]. eapply owt_app; [exact E1|]. by eapply owt_less.
    - destruct (block k0 b1) as [ka|] eqn:E1; [|done]. destruct (block k0 b2) as [kb|] eqn:E2; [|done].
      destruct (ocommon_less _ _ _ Hck) as [H1 H2].
      apply (Same h k0); [done|done|apply oless_refl|]. eapply owt_app; [exact E2|]. by eapply owt_less.
    - destruct (block k0 b) as [ka|] eqn:E1; [|done]. destruct (olessb k0 ka); [|done]. injection Hck as <-.
      by apply (Same h k0).
    - destruct (block k0 b) as [ka|] eqn:E1; [|done]. destruct (olessb k0 ka) eqn:El; [|done]. injection Hck as <-.
      pose proof (olessb_less _ _ El) as Hl2.
      apply (Same h k0); [done|done|apply oless_refl|].
      rewrite <- app_assoc. eapply owt_app; [exact E1|]. eapply owt_less; [exact Hl2|].
      cbn [app]. eapply owt_cons; [apply oless_refl| |exact Hr]. cbn [ocheck1]. by rewrite E1, El.
    - destruct (forallb _ (ohld k0)); [|done]. injection Hck as <-. by apply (Same h k0).
  Qed.

  Lemma of_thread_none s t : oinv s -> length (thr s) <= t -> of_thread t (held (mem s)) = [].
  Proof.
    intros I Ht. destruct (of_thread t (held (mem s))) as [|[[[t' m] o] l] r] eqn:E; [done|]. exfalso.
    assert ((t', m, o, l) ∈ of_thread t (held (mem s))) as Hin by (rewrite E; left).
    apply of_thread_in in Hin as [Hin Ht']. cbn in Ht'. subst. apply (o_held _ I) in Hin. lia.
  Qed.

  Lemma oframe_empty h t fr cs : oframe h fr cs -> [] ≡ₚ map (entry t) cs -> oframe h fr [].
  Proof. intros H E. apply Permutation_nil_l in E. by destruct cs. Qed.

  Lemma othread_quiet h t fs : othread h t fs -> of_thread t (held h) = [] -> Forall (fun fr => oframe h fr []) fs.
  Proof.
    destruct fs as [|fr fs]; cbn; [constructor|]. intros (cs & H1 & H2 & H3) E. rewrite E in H2.
    constructor; [by eapply oframe_empty|done].
  Qed.

  Lemma othread_of h t fs : Forall (fun fr => oframe h fr []) fs -> of_thread t (held h) = [] -> othread h t fs.
  Proof.
    intros H E. destruct H as [|fr fs H1 H2]; cbn; [done|]. exists []. rewrite E. done.
  Qed.

  Lemma update_thr s t fs' h' kn ma :
    oinv s -> t < length (thr s) -> objs (mem s) `prefix_of` objs h' ->
    (forall u, u <> t -> of_thread u (held (mem s)) ≡ₚ of_thread u (held h')) ->
    (forall u m o l, (u, m, o, l) ∈ held h' -> (u, m, o, l) ∈ held (mem s) \/ u = t) ->
    othread h' t fs' ->
    oinv {| mem := h'; thr := <[t := fs']> (thr s); known := kn; mail := ma |}.
  Proof.
    intros I Ht P Ho Hn Hf. split; cbn [mem thr].
    - intros u fs. destruct (decide (u = t)) as [->|Hu].
      + rewrite list_lookup_insert by done. by intros [= <-].
      + rewrite list_lookup_insert_ne by done. intros Hu'. eapply othread_ext; [done|by apply Ho|]. by apply I.
    - intros u m o l H. rewrite insert_length. apply Hn in H as [H| ->]; [by eapply o_held|done].
    - intros i g Hg. eapply prefix_look; [done|]. by apply I.
  Qed.

  Lemma spawn_thr s t fs' new kn ma :
    oinv s -> t < length (thr s) -> othread (mem s) t fs' -> Forall (fun fr => oframe (mem s) fr []) new ->
    oinv {| mem := mem s; thr := <[t := fs']> (thr s) ++ [new]; known := kn; mail := ma |}.
  Proof.
    intros I Ht Hf Hn.
    pose proof (update_thr s t fs' (mem s) kn ma I Ht ltac:(done) ltac:(done) ltac:(by left) Hf) as I'.
    split; cbn [mem thr].
    - intros u fs H. apply lookup_app_Some in H as [H|[H1 H2]]; [by apply I'|].
      apply list_lookup_singleton_Some in H2 as [H2 <-]. apply othread_of; [done|].
      apply of_thread_none; [done|]. rewrite insert_length in H1, H2. lia.
    - intros u m o l H. rewrite app_length, insert_length. cbn. apply (o_held _ I) in H. lia.
    - apply I.
  Qed.

  Lemma call_facts s t m os :
    oinv s -> args_ok s t (params m) os ->
    ofacts (mem s) (zip (params m).*1 os ++ globals_env L) {| ocls := params m ++ globals L; ohld := [] |}.
  Proof.
    intros I Ha x c. cbn [ocls]. rewrite lookup_cls_app, lookup_var_app.
    pose proof (lookup_params s t (params m) os x Ha) as Hp.
    destruct (lookup_cls (params m) x) as [d|].
    - intros [= ->]. destruct Hp as (o & H1 & H2 & _). rewrite H1. by exists o.
    - rewrite Hp. intros H. apply lookup_globals in H as (i & H1 & H2). exists i. split; [done|].
      by apply (o_glob _ I) in H2.
  Qed.

  Lemma oinv_step s t oe s' : oinv s -> step L s t oe s' -> polite s t s' -> oinv s'.
  Proof.
    intros I Hst Hpol.
    destruct Hst as [e c k fs oe h' e' b Ht Hc|e b k fs Ht|e fs Ht|fs m os Ht Hu Hm Ha|fs Ht Hu|fs ch o Ht Hu Hk
      |fs ch o Ht Hu Hm|fs Ht|m o l held' Ht Hp];
      pose proof (lookup_lt_Some _ _ _ Ht) as Hlt; pose proof (o_thr _ I _ _ Ht) as T.
    - cbn in T. destruct T as (cs & (K & F & Hcl & Hw) & Hh & Hrest). cbn [fst snd] in *.
      destruct (ocmd _ _ _ _ _ _ _ _ _ _ _ F Hcl Hw Hh Hc) as (P & Ho & Hn & cs' & Hf & Hh').
      apply update_thr; try done. cbn. exists cs'. split_and!; [done..|].
      eapply Forall_impl; [done|]. intros fr. by apply oframe_ext.
    - cbn in T. destruct T as (cs & (K & F & Hcl & Hw) & Hh & Hrest). cbn [fst snd] in *.
      inversion Hw as [|? k0 ? ? k1 Hl Hck Hr]; subst. cbn [ocheck1] in Hck.
      destruct (block {| ocls := ocls k0; ohld := [] |} b) as [kb|] eqn:Eb; [|done].
      destruct (bool_decide (ohld kb = [])) eqn:Ee; [|done]. apply bool_decide_eq_true in Ee. injection Hck as <-.
      apply spawn_thr; try done.
      + cbn. exists cs. split_and!; [|done|done]. exists K. split_and!; [done..|]. by eapply owt_less.
      + constructor; [|constructor]. exists {| ocls := ocls k0; ohld := [] |}. cbn [fst snd]. split_and!.
        * intros x c Hx. apply F. by apply Hl.
        * constructor.
        * rewrite <- (app_nil_r b). eapply owt_app; [exact Eb|]. by constructor.
    - cbn in T. destruct T as (cs & (K & F & Hcl & Hw) & Hh & Hrest). cbn [fst snd] in *.
      inversion Hw as [? Hk|]; subst. rewrite Hk in Hcl. inversion Hcl; subst. cbn in Hh.
      apply Permutation_nil_r in Hh. destruct s. apply (update_thr {| mem := mem; thr := thr; known := known; mail := mail |}); try done.
      { by left. }
      by apply othread_of.
    - assert (~ busy s t) as Hb.
      { intros Hb. destruct (Hpol Hb) as (f1 & f2 & E1 & E2 & Hg). cbn [thr] in E2.
        rewrite list_lookup_insert in E2 by done. rewrite Ht in E1. injection E1 as <-. injection E2 as <-.
        destruct Hg as [(? & ? & ? & ? & ? & r & A & B)|(? & A)].
        - rewrite A in B. apply (f_equal length) in B. cbn in B. lia.
        - apply (f_equal length) in A. cbn in A. lia. }
      pose proof (not_busy _ _ _ Ht Hb) as Hn.
      apply update_thr; try done; [by left|]. apply othread_of; [|done].
      constructor; [|by apply (othread_quiet _ t)].
      exists {| ocls := params m ++ globals L; ohld := [] |}. cbn [fst snd]. split_and!; [by eapply call_facts|constructor|].
      pose proof (forallb_elem _ _ _ ok Hm) as Hk. unfold ocheck_method in Hk.
      destruct (block {| ocls := params m ++ globals L; ohld := [] |} (body m)) as [k1|] eqn:E; [|done].
      apply bool_decide_eq_true in Hk. rewrite <- (app_nil_r (body m)). eapply owt_app; [exact E|]. by constructor.
    - rewrite <- (list_insert_id _ _ _ Ht). by apply spawn_thr.
    - rewrite <- (list_insert_id _ _ _ Ht). apply update_thr; try done. by left.
    - rewrite <- (list_insert_id _ _ _ Ht). apply update_thr; try done. by left.
    - apply update_thr; try done; [by left|]. cbn.
      assert (busy s t \/ ~ busy s t) as [Hb|Hb].
      { destruct (of_thread t (held (mem s))) as [|[[[t' m] o] l] r] eqn:E.
        - right. intros (m & o & l & Hin). assert ((t, m, o, l) ∈ of_thread t (held (mem s))) as H by (by apply of_thread_in).
          rewrite E in H. by apply elem_of_nil in H.
        - left. assert ((t', m, o, l) ∈ of_thread t (held (mem s))) as Hin by (rewrite E; left).
          apply of_thread_in in Hin as [Hin Ht']. cbn in Ht'. subst. by exists m, o, l. }
      + destruct (Hpol Hb) as (f1 & f2 & E1 & E2 & Hg). cbn [thr] in E2.
        rewrite list_lookup_insert in E2 by done. rewrite Ht in E1. injection E1 as <-. injection E2 as <-.
        destruct Hg as [(? & ? & ? & ? & ? & r & A & B)|(e & ->)]; [done|].
        cbn in T. destruct T as (cs & (K & F & Hcl & Hw) & Hh & Hrest). cbn [fst snd] in *.
        inversion Hw as [? Hk|]; subst. rewrite Hk in Hcl. inversion Hcl; subst. cbn in Hh. by apply Permutation_nil_r in Hh.
      + by eapply not_busy.
    - exfalso. cbn in T. assert ((t, m, o, l) ∈ of_thread t (held (mem s))) as H.
      { apply of_thread_in. split; [|done]. rewrite Hp. left. }
      rewrite T in H. by apply elem_of_nil in H.
  Qed.

  Lemma oinv_init : oinv (init_state L).
  Proof.
    split; cbn.
    - intros t fs H. destruct t; [|done]. cbn in H. by injection H as <-.
    - by intros ? ? ? ? ?%elem_of_nil.
    - intros i g H. by rewrite list_lookup_fmap, H.
  Qed.

  Lemma oinv_state s : polite_state L s -> oinv s.
  Proof. induction 1; [apply oinv_init|by eapply oinv_step]. Qed.

  (** ** No cycles *)

  Lemma wants_inv s t m o l : oinv s -> wants s t m o l ->
    exists c r, objs (mem s) !! o = Some c /\ rank c l = Some r /\
      forall m' o' l' c' r', (t, m', o', l') ∈ held (mem s) -> objs (mem s) !! o' = Some c' -> rank c' l' = Some r' -> r' < r.
  Proof.
    intros I (e & v & k & fs & Ht & Hv). pose proof (o_thr _ I _ _ Ht) as T. cbn in T.
    destruct T as (cs & (K & F & Hcl & Hw) & Hh & _). cbn [fst snd] in *.
    inversion Hw as [|? k0 ? ? k1 Hl Hck Hr]; subst. cbn [ocheck1] in Hck. unfold otake in Hck.
    destruct (lookup_cls (ocls k0) v) as [c|] eqn:Ec; [|done].
    destruct (above rank k0 c l) eqn:Ea; [|done]. unfold above in Ea. destruct (rank c l) as [r|] eqn:Er; [|done].
    destruct (F v c) as (o1 & H1 & H2); [by apply Hl|]. rewrite Hv in H1. injection H1 as <-.
    exists c, r. split_and!; [done..|]. intros m' o' l' c' r' Hin Ho' Hr'.
    assert ((t, m', o', l') ∈ map (entry t) cs) as H.
    { rewrite <- Hh. by apply of_thread_in. }
    apply elem_of_list_fmap in H as ([[m2 o2] l2] & E & H). injection E as <- <- <-.
    destruct Hl as [_ Hl]. rewrite <- Hl in Hcl.
    apply elem_of_list_lookup in H as [i Hi]. destruct (Forall2_lookup_r _ _ _ _ _ Hcl Hi) as (x & Hx & A & B & C & D).
    apply elem_of_list_lookup_2 in Hx. pose proof (forallb_elem _ _ _ Ea Hx) as Hf. cbn in Hf, A, B, C, D.
    assert (x.2 = c') as E by congruence. rewrite E, C in Hf. rewrite Hr' in Hf. by apply Nat.ltb_lt in Hf.
  Qed.

  Lemma wants_one s t m o l m' o' l' : wants s t m o l -> wants s t m' o' l' -> m = m' /\ o = o' /\ l = l'.
  Proof.
    intros (e & v & k & fs & H & Hv) (e' & v' & k' & fs' & H' & Hv'). rewrite H in H'. injection H' as -> -> -> -> -> ->.
    split_and!; congruence.
  Qed.

  (** How far up goroutine t is. *)
  Definition at_level (s : state) (t n : nat) : Prop :=
    exists m o l c r, wants s t m o l /\ objs (mem s) !! o = Some c /\ rank c l = Some r /\
      n = 2 * r + match m with MR => 0 | _ => 1 end.

  Lemma level_up s t u n : oinv s -> waits s t u -> at_level s t n -> (exists w, waits s u w) ->
    exists n', at_level s u n' /\ n < n'.
  Proof.
    intros I (m & o & l & Hw & He) (m1 & o1 & l1 & c & r & Hw1 & Ho & Hr & ->) (w & m2 & o2 & l2 & Hw2 & _).
    destruct (wants_one _ _ _ _ _ _ _ _ Hw Hw1) as (<- & <- & <-).
    destruct (wants_inv _ _ _ _ _ I Hw2) as (c2 & r2 & Ho2 & Hr2 & Hb).
    exists (2 * r2 + match m2 with MR => 0 | _ => 1 end). split; [by exists m2, o2, l2, c2, r2|].
    destruct He as [(m' & Hin & _)|(-> & Hw3)].
    - pose proof (Hb _ _ _ _ _ Hin Ho Hr). destruct m, m2; lia.
    - destruct (wants_one _ _ _ _ _ _ _ _ Hw2 Hw3) as (-> & -> & ->).
      assert (c2 = c) as -> by congruence. assert (r2 = r) as -> by congruence. lia.
  Qed.

  Lemma waits_level s t u : oinv s -> waits s t u -> exists n, at_level s t n.
  Proof.
    intros I (m & o & l & Hw & _). destruct (wants_inv _ _ _ _ _ I Hw) as (c & r & H1 & H2 & _).
    eexists _, m, o, l, c, r. by split_and!.
  Qed.

  Lemma level_one s t n n' : at_level s t n -> at_level s t n' -> n = n'.
  Proof.
    intros (m & o & l & c & r & Hw & Ho & Hr & ->) (m' & o' & l' & c' & r' & Hw' & Ho' & Hr' & ->).
    destruct (wants_one _ _ _ _ _ _ _ _ Hw Hw') as (<- & <- & <-). congruence.
  Qed.

  Lemma level_up_tc s t u n : oinv s -> tc (waits s) t u -> at_level s t n -> (exists w, waits s u w) ->
    exists n', at_level s u n' /\ n < n'.
  Proof.
    intros I H. revert n. induction H as [t u H|t v u H H1 IH]; intros n Hn Hu; [by eapply level_up|].
    assert (exists w, waits s v w) as Hv by (inversion H1; subst; eauto).
    destruct (level_up _ _ _ _ I H Hn Hv) as (n1 & Hn1 & Hlt).
    destruct (IH n1 Hn1 Hu) as (n2 & Hn2 & Hlt2). exists n2. split; [done|lia].
  Qed.

  Lemma no_deadlock s : polite_state L s -> ~ deadlock s.
  Proof.
    intros Hs (t & H). apply oinv_state in Hs as I.
    assert (exists w, waits s t w) as [w Hw] by (inversion H; subst; eauto).
    destruct (waits_level _ _ _ I Hw) as (n & Hn).
    destruct (level_up_tc _ _ _ _ I H Hn ltac:(eauto)) as (n' & Hn' & Hlt).
    rewrite (level_one _ _ _ _ Hn Hn') in Hlt. lia.
  Qed.

  (** ** Somebody does not wait *)

  Lemma wants_dec s t : (exists m o l, wants s t m o l) \/ ~ exists m o l, wants s t m o l.
  Proof.
    destruct (match thr s !! t with
      | Some ((e, Lk m v l :: k) :: fs) => match lookup_var e v with Some o => Some (m, o, l) | None => None end
      | _ => None end) as [[[m o] l]|] eqn:E.
    - left. exists m, o, l. destruct (thr s !! t) as [[|[e [|[] k]] fs]|] eqn:Ht; try done.
      destruct (lookup_var e v) as [o1|] eqn:Ev; [|done]. injection E as -> -> ->. by exists e, v, k, fs.
    - right. intros (m & o & l & e & v & k & fs & H & Hv). by rewrite H, Hv in E.
  Qed.

  Lemma writer_dec (s : state) o l :
    (exists u, wants s u MW o l) \/ ~ exists u, wants s u MW o l.
  Proof.
    assert (forall n, (exists u, u < n /\ wants s u MW o l) \/ ~ exists u, u < n /\ wants s u MW o l) as H.
    { induction n as [|n [H|H]].
      - right. intros (u & Hu & _). lia.
      - left. destruct H as (u & Hu & H). exists u. split; [lia|done].
      - destruct (wants_dec s n) as [(m & o1 & l1 & Hw)|Hn].
        + destruct (decide (m = MW)) as [->|Hm].
          * destruct (decide (o1 = o)) as [->|Ho]; [destruct (decide (l1 = l)) as [->|Hl]|].
            -- left. exists n. split; [lia|done].
            -- right. intros (u & Hu & Hw2). destruct (decide (u = n)) as [->|]; [|apply H; exists u; split; [lia|done]].
               destruct (wants_one _ _ _ _ _ _ _ _ Hw Hw2) as (? & ? & ?). done.
            -- right. intros (u & Hu & Hw2). destruct (decide (u = n)) as [->|]; [|apply H; exists u; split; [lia|done]].
               destruct (wants_one _ _ _ _ _ _ _ _ Hw Hw2) as (? & ? & ?). done.
          * right. intros (u & Hu & Hw2). destruct (decide (u = n)) as [->|]; [|apply H; exists u; split; [lia|done]].
            destruct (wants_one _ _ _ _ _ _ _ _ Hw Hw2) as (? & ? & ?). done.
        + right. intros (u & Hu & Hw2). destruct (decide (u = n)) as [->|]; [|apply H; exists u; split; [lia|done]].
          apply Hn. eauto. }
    destruct (H (length (thr s))) as [(u & _ & Hu)|Hn]; [left; eauto|right].
    intros (u & Hu). apply Hn. exists u. split; [|done]. destruct Hu as (e & v & k & fs & Ht & _). by eapply lookup_lt_Some.
  Qed.

  Lemma waits_dec s t : (exists u, waits s t u) \/ ~ exists u, waits s t u.
  Proof.
    destruct (wants_dec s t) as [(m & o & l & Hw)|Hn]; [|right; intros (u & m & o & l & Hw & _); eauto].
    destruct (existsb (fun a => match a with (_, m', o', l') =>
        bool_decide (o' = o) && bool_decide (l' = l) && negb (bool_decide (m = MR) && bool_decide (m' = MR)) end) (held (mem s))) eqn:E.
    { left. apply existsb_exists in E as ([[[u m'] o'] l'] & Hin & E). apply elem_of_list_In in Hin.
      apply andb_prop in E as [E E3]. apply andb_prop in E as [E1 E2].
      apply bool_decide_eq_true in E1, E2. subst. exists u, m, o, l. split; [done|]. left. exists m'. split; [done|].
      intros [-> ->]. by rewrite bool_decide_eq_true_2 in E3. }
    destruct (decide (m = MR)) as [->|Hm]; [destruct (writer_dec s o l) as [[u Hu]|Hu]|].
    - left. exists u, MR, o, l. split; [done|]. by right.
    - right. intros (u & m1 & o1 & l1 & Hw1 & He). destruct (wants_one _ _ _ _ _ _ _ _ Hw Hw1) as (<- & <- & <-).
      destruct He as [(m' & Hin & Hm')|(_ & Hu')]; [|eauto].
      rewrite <- not_true_iff_false in E. apply E. apply existsb_exists. exists (u, m', o, l).
      split; [by apply elem_of_list_In|]. rewrite !bool_decide_eq_true_2 by done. cbn.
      destruct (decide (m' = MR)) as [->|]; [by exfalso; apply Hm'|]. by rewrite bool_decide_eq_false_2.
    - right. intros (u & m1 & o1 & l1 & Hw1 & He). destruct (wants_one _ _ _ _ _ _ _ _ Hw Hw1) as (<- & <- & <-).
      destruct He as [(m' & Hin & Hm')|(? & Hu')]; [|done].
      rewrite <- not_true_iff_false in E. apply E. apply existsb_exists. exists (u, m', o, l).
      split; [by apply elem_of_list_In|]. rewrite !bool_decide_eq_true_2 by done. cbn. by rewrite bool_decide_eq_false_2.
  Qed.

  Lemma waits_in s t u : oinv s -> waits s t u -> u < length (thr s).
  Proof.
    intros I (m & o & l & _ & [(m' & Hin & _)|(_ & (e & v & k & fs & Ht & _))]); [by eapply o_held|by eapply lookup_lt_Some].
  Qed.

  (** A chain of goroutines that wait cannot be longer than there are goroutines. *)
  Lemma chain_ends s : oinv s -> ~ deadlock s -> forall n seen t,
    length (thr s) <= length seen + n -> NoDup seen -> Forall (fun v => v < length (thr s)) seen ->
    Forall (fun v => tc (waits s) v t) seen -> (exists u, waits s t u) ->
    exists v, tc (waits s) t v /\ ~ exists w, waits s v w.
  Proof.
    intros I Hd n. induction n as [|n IH]; intros seen t Hn Hnd Hall Htc (u & Hu).
    - exfalso. assert (t ∉ seen) as Hts.
      { intros H. rewrite Forall_forall in Htc. apply Hd. exists t. by apply Htc. }
      assert (t < length (thr s)) as Hlt.
      { destruct Hu as (m & o & l & (e & v & k & fs & Ht & _) & _). by eapply lookup_lt_Some. }
      assert (NoDup (t :: seen)) as Hnd2 by by constructor.
      assert (t :: seen ⊆ seq 0 (length (thr s))) as Hsub.
      { intros x Hx. apply elem_of_list_In, in_seq. apply elem_of_cons in Hx as [->|Hx]; [lia|].
        rewrite Forall_forall in Hall. apply Hall in Hx. lia. }
      apply NoDup_submseteq in Hsub; [|done]. apply submseteq_length in Hsub. rewrite seq_length in Hsub. cbn in Hsub. lia.
    - destruct (waits_dec s u) as [Hw|Hw]; [|exists u; split; [by apply tc_once|done]].
      assert (t ∉ seen) as Hts.
      { intros H. rewrite Forall_forall in Htc. apply Hd. exists t. by apply Htc. }
      assert (t < length (thr s)) as Hlt.
      { destruct Hu as (m & o & l & (e & v & k & fs & Ht & _) & _). by eapply lookup_lt_Some. }
      destruct (IH (t :: seen) u) as (v & H1 & H2); [cbn; lia|by constructor|by constructor| |done|].
      + constructor; [by apply tc_once|]. eapply Forall_impl; [exact Htc|]. intros v Hv. cbn in Hv. by eapply tc_r.
      + exists v. split; [|done]. by eapply tc_l.
  Qed.

  Lemma somebody_goes_on s t u : polite_state L s -> waits s t u ->
    exists v, tc (waits s) t v /\ ~ exists w, waits s v w.
  Proof.
    intros Hs H. apply (chain_ends s (oinv_state _ Hs) (no_deadlock _ Hs) (length (thr s)) [] t); [cbn; lia|constructor..|eauto].
  Qed.

  (** ** Nothing stays locked *)

  Lemma idle_not_busy s t : polite_state L s -> thr s !! t = Some [] -> ~ busy s t.
  Proof.
    intros Hs Ht (m & o & l & Hin). pose proof (o_thr _ (oinv_state _ Hs) _ _ Ht) as T. cbn in T.
    assert ((t, m, o, l) ∈ of_thread t (held (mem s))) as H by (by apply of_thread_in).
    rewrite T in H. by apply elem_of_nil in H.
  Qed.

  Lemma callback_locks s t o l : polite_state L s -> callback_under s t o l ->
    exists c, objs (mem s) !! o = Some c /\ quiet c l = true.
  Proof.
    intros Hs (e & k & fs & m & Ht & Hin). pose proof (o_thr _ (oinv_state _ Hs) _ _ Ht) as T. cbn in T.
    destruct T as (cs & (K & F & Hcl & Hw) & Hh & _). cbn [fst snd] in *.
    inversion Hw as [|? k0 ? ? k1 Hl Hck Hr]; subst. cbn [ocheck1] in Hck.
    destruct (forallb (fun h => quiet h.2 h.1.2) (ohld k0)) eqn:Ea; [|done].
    assert ((t, m, o, l) ∈ map (entry t) cs) as H by (rewrite <- Hh; by apply of_thread_in).
    apply elem_of_list_fmap in H as ([[m2 o2] l2] & E & H). injection E as <- <- <-.
    destruct Hl as [_ Hl]. rewrite <- Hl in Hcl.
    apply elem_of_list_lookup in H as [i Hi]. destruct (Forall2_lookup_r _ _ _ _ _ Hcl Hi) as (x & Hx & A & B & C & D).
    apply elem_of_list_lookup_2 in Hx. pose proof (forallb_elem _ _ _ Ea Hx) as Hf. cbn in Hf, A, B, C, D.
    exists x.2. split; [done|]. by rewrite <- C.
  Qed.
End proofs.
