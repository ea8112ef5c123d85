(** * Libraries that pass the check have no data races: happens-before *)
From Verif Require Import RaceModel RaceSpec RaceCheck.
From stdpp Require Import relations.
From Coq Require Import Lia.

Lemma observes_ext tr x i j : observes tr i j -> observes (tr ++ x) i j.
Proof.
  intros (t1 & a1 & t2 & a2 & o & f & H1 & H2 & H3 & H4 & H5).
  exists t1, a1, t2, a2, o, f. split_and!; [by apply lookup_app_l_Some..|done|done|].
  intros k t a Hi Hj Hk. apply (H5 k t a Hi Hj). apply lookup_lt_Some in H2.
  by rewrite lookup_app_l in Hk by lia.
Qed.

Lemma before1_ext tr x i j : before1 tr i j -> before1 (tr ++ x) i j.
Proof.
  intros (? & t1 & e1 & t2 & e2 & H1 & H2 & H). split; [done|].
  exists t1, e1, t2, e2. split_and!; [by apply lookup_app_l_Some..|].
  destruct H as [H|[H|[H|H]]]; auto. right. right. right. by apply observes_ext.
Qed.

Lemma hb_ext tr x i j : happens_before tr i j -> happens_before (tr ++ x) i j.
Proof.
  intros H. induction H as [i j H|i j k H _ IH].
  - apply tc_once, before1_ext, H.
  - eapply tc_l; [apply before1_ext, H|exact IH].
Qed.

Lemma hb_lt tr i j : happens_before tr i j -> i < j.
Proof. induction 1 as [i j [H _]|i j k [H _] _ IH]; lia. Qed.

Lemma hb_inside tr i j : happens_before tr i j -> j < length tr.
Proof.
  intros H. induction H as [i j (_ & t1 & e1 & t2 & e2 & _ & H & _)|]; [|done].
  by eapply lookup_lt_Some.
Qed.

Lemma hb_same tr i j t e1 e2 :
  tr !! i = Some (t, e1) -> tr !! j = Some (t, e2) -> i < j -> happens_before tr i j.
Proof. intros H1 H2 H. apply tc_once. split; [done|]. exists t, e1, t, e2. auto. Qed.

Lemma hb_sync tr i j t1 e1 t2 e2 :
  tr !! i = Some (t1, e1) -> tr !! j = Some (t2, e2) -> i < j -> synchronizes e1 e2 ->
  happens_before tr i j.
Proof. intros H1 H2 H S. apply tc_once. split; [done|]. exists t1, e1, t2, e2. auto. Qed.

Lemma hb_observes tr i j : i < j -> observes tr i j -> happens_before tr i j.
Proof.
  intros H O. apply tc_once. split; [done|]. pose proof O as (t1 & a1 & t2 & a2 & o & f & H1 & H2 & _).
  exists t1, (EAt a1 o f), t2, (EAt a2 o f). split_and!; [done..|]. by right; right; right.
Qed.

Lemma hb_trans tr i j k : happens_before tr i j -> happens_before tr j k -> happens_before tr i k.
Proof. apply tc_transitive. Qed.

(** i is done, for whatever goroutine t does next. *)
Definition seen (tr : list (nat * ev)) (t : nat) (i : nat) : Prop :=
  exists k u e, tr !! k = Some (u, e) /\ (u = t \/ e = ESpawn t) /\ (i = k \/ happens_before tr i k).

Lemma seen_ext tr x t i : seen tr t i -> seen (tr ++ x) t i.
Proof.
  intros (k & u & e & H & H1 & H2). exists k, u, e.
  split; [by apply lookup_app_l_Some|]. split; [done|].
  destruct H2 as [?|H2]; [by left|right; by apply hb_ext].
Qed.

Lemma seen_next tr t e i : seen tr t i -> happens_before (tr ++ [(t, e)]) i (length tr).
Proof.
  intros (k & u & e1 & H & H1 & H2).
  pose proof (lookup_lt_Some _ _ _ H) as Hk.
  assert (happens_before (tr ++ [(t, e)]) k (length tr)) as Hkn.
  { apply tc_once. split; [done|]. exists u, e1, t, e.
    split; [by apply lookup_app_l_Some|]. split; [apply list_lookup_middle; done|].
    destruct H1 as [?|?]; auto. }
  destruct H2 as [->|H2]; [done|]. eapply hb_trans; [apply hb_ext, H2|done].
Qed.

Lemma seen_hb tr t i j e : tr !! j = Some (t, e) -> happens_before tr i j -> seen tr t i.
Proof. intros H H1. exists j, t, e. auto. Qed.

Lemma seen_self tr t i e : tr !! i = Some (t, e) -> seen tr t i.
Proof. intros H. exists i, t, e. auto. Qed.

Lemma last_event (tr : list (nat * ev)) x : (tr ++ [x]) !! length tr = Some x.
Proof. by apply list_lookup_middle. Qed.

Lemma lookup_snoc (tr : list (nat * ev)) x i y :
  (tr ++ [x]) !! i = Some y -> tr !! i = Some y \/ i = length tr /\ y = x.
Proof.
  intros H. apply lookup_app_Some in H as [H|[H1 H2]]; [by left|right].
  apply list_lookup_singleton_Some in H2 as [H2 ->]. split; [lia|done].
Qed.

(** The goroutine has the allocation of o behind it. *)
Definition knows (tr : list (nat * ev)) (t : nat) (o : nat) : Prop :=
  exists n u c, tr !! n = Some (u, ENew o c) /\ seen tr t n.

Lemma knows_ext tr x t o : knows tr t o -> knows (tr ++ x) t o.
Proof.
  intros (n & u & c & H1 & H2). exists n, u, c.
  split; [by apply lookup_app_l_Some|by apply seen_ext].
Qed.

Section invariant.
  Variable disc : string -> string -> option kind.

  (** The rest of a call may be done with what is known, or with less. *)
  Inductive wtk : ctx -> list cmd -> Prop :=
  | wt_nil k : hld k = [] -> wtk k []
  | wt_cons k k0 c b k1 : less k0 k -> check1 disc k0 c = Some k1 -> wtk k1 b -> wtk k (c :: b).

  Definition passed (h : heap) (tr : list (nat * ev)) (t o : nat) (n : string) : Prop :=
    (o, n) ∈ done h /\
    forall k u, tr !! k = Some (u, ERel MO o n) -> u = t \/ exists p, k < p /\ tr !! p = Some (t, EPass o n).

  Definition facts (h : heap) (tr : list (nat * ev)) (t : nat) (e : list (string * nat)) (k : ctx) : Prop :=
    (forall x c, lookup_cls (cls k) x = Some c ->
       exists o, lookup_var e x = Some o /\ objs h !! o = Some c /\ knows tr t o) /\
    (forall v f x, (v, f, x) ∈ ali k ->
       exists o o' c, lookup_var e v = Some o /\ lookup_var e x = Some o' /\
         objs h !! o = Some c /\ disc c f = Some KImm /\ (o, f, o') ∈ cont h) /\
    (forall v n, (v, n) ∈ psd k -> exists o, lookup_var e v = Some o /\ passed h tr t o n) /\
    (forall v, v ∈ own k -> exists o n c, lookup_var e v = Some o /\ tr !! n = Some (t, ENew o c)).

  Definition claim (e : list (string * nat)) (x : mode * string * string) (y : mode * nat * string) : Prop :=
    x.1.1 = y.1.1 /\ lookup_var e x.1.2 = Some y.1.2 /\ x.2 = y.2.

  Definition frame_inv (h : heap) (tr : list (nat * ev)) (t : nat) (fr : list (string * nat) * list cmd)
      (cs : list (mode * nat * string)) : Prop :=
    Forall (fun xo => knows tr t xo.2) fr.1 /\
    exists k, facts h tr t fr.1 k /\ Forall2 (claim fr.1) (hld k) cs /\ wtk k fr.2.

  Definition entry (t : nat) (y : mode * nat * string) : nat * mode * nat * string := (t, y.1.1, y.1.2, y.2).

  Definition of_thread (t : nat) (l : list (nat * mode * nat * string)) :=
    List.filter (fun x => Nat.eqb x.1.1.1 t) l.

  Definition thread_inv (h : heap) (tr : list (nat * ev)) (t : nat) (fs : list (list (string * nat) * list cmd)) : Prop :=
    exists css, Forall2 (frame_inv h tr t) fs css /\
      map (entry t) (concat css) ⊆+ of_thread t (held h).

  Definition lockinv (h : heap) (tr : list (nat * ev)) (o : nat) (l : string) (j t : nat) (e : ev) : Prop :=
    (is_plain_read e \/ (t, MW, o, l) ∈ held h \/
     exists k, j < k /\ tr !! k = Some (t, ERel MW o l) /\
       forall t' m', (t', m', o, l) ∈ held h -> m' <> MO -> exists a, k < a /\ tr !! a = Some (t', EAcq m' o l)) /\
    ((exists m, m <> MO /\ (t, m, o, l) ∈ held h) \/
     exists k m, m <> MO /\ j < k /\ tr !! k = Some (t, ERel m o l) /\
       forall t', (t', MW, o, l) ∈ held h -> exists a, k < a /\ tr !! a = Some (t', EAcq MW o l)).

  Definition onceinv (h : heap) (tr : list (nat * ev)) (o : nat) (n : string) (j t : nat) (e : ev) : Prop :=
    (t, MO, o, n) ∈ held h \/
    (o, n) ∈ done h /\ (is_plain_read e \/ exists k, j < k /\ tr !! k = Some (t, ERel MO o n)).

  Definition accinv (h : heap) (tr : list (nat * ev)) (kd : kind) (j t : nat) (e : ev) (o : nat) (f : string) : Prop :=
    match kd with
    | KImm => e = ERd o f
    | KAtomic => exists a, e = EAt a o f
    | KMine => exists n c, tr !! n = Some (t, ENew o c)
    | KLock l => lockinv h tr o l j t e
    | KVia g l => (exists c, objs h !! o = Some c /\ disc c g = Some KImm) /\
        exists o1, (o, g, o1) ∈ cont h /\ lockinv h tr o1 l j t e
    | KOnce n => onceinv h tr o n j t e
    end.

  Definition is_new (e : ev) : Prop := exists o c, e = ENew o c.

  (** What holds of the memory and the events. *)
  Record hinv (h : heap) (tr : list (nat * ev)) : Prop := {
    i_cont : forall o f o', (o, f, o') ∈ cont h ->
      exists j n tj ej tn c, tr !! j = Some (tj, ej) /\ touches ej o f /\ ~ is_plain_read ej /\
        (forall a, ej = EAt a o f -> writes a /\ forall k t b, j < k -> tr !! k = Some (t, EAt b o f) -> ~ writes b) /\
        tr !! n = Some (tn, ENew o' c) /\ happens_before tr n j;
    i_new : forall n t o c, tr !! n = Some (t, ENew o c) -> objs h !! o = Some c;
    i_new1 : forall n1 n2 t1 t2 o c1 c2, tr !! n1 = Some (t1, ENew o c1) -> tr !! n2 = Some (t2, ENew o c2) -> n1 = n2;
    i_imm : forall o c f o1 o2, objs h !! o = Some c -> disc c f = Some KImm ->
      (o, f, o1) ∈ cont h -> (o, f, o2) ∈ cont h -> o1 = o2;
    i_obj : forall o f o', (o, f, o') ∈ cont h -> o < length (objs h);
    i_excl : forall t m o l, (t, m, o, l) ∈ held h -> m <> MR ->
      exists held', held h ≡ₚ (t, m, o, l) :: held' /\ forall t' m', (t', m', o, l) ∉ held';
    i_once : forall o l t, (o, l) ∈ done h -> (t, MO, o, l) ∉ held h;
    i_rel : forall k u o l, tr !! k = Some (u, ERel MO o l) -> (o, l) ∈ done h;
    i_acc : forall j t e o f, tr !! j = Some (t, e) -> touches e o f -> ~ is_new e ->
      exists c kd, objs h !! o = Some c /\ disc c f = Some kd /\ accinv h tr kd j t e o f;
    i_rf : forall i j t1 e1 t2 e2, tr !! i = Some (t1, e1) -> tr !! j = Some (t2, e2) -> i < j ->
      conflict e1 e2 -> happens_before tr i j;
  }.

  Record inv (L : library) (s : state) (tr : list (nat * ev)) : Prop := {
    i_heap : hinv (mem s) tr;
    i_thr : forall t fs, thr s !! t = Some fs -> thread_inv (mem s) tr t fs;
    i_known : forall t o, (t, o) ∈ known s -> knows tr t o;
    i_mail : forall ch o, (ch, o) ∈ mail s -> exists n u c k u', tr !! n = Some (u, ENew o c) /\
      tr !! k = Some (u', ESend ch) /\ happens_before tr n k;
    i_glob : forall i g, globals L !! i = Some g -> objs (mem s) !! i = Some g.2 /\
      forall t, t < length (thr s) -> knows tr t i;
  }.

  (** ** Exclusion *)

  Lemma excl_eq h tr t m t' m' o l :
    hinv h tr -> (t, m, o, l) ∈ held h -> m <> MR -> (t', m', o, l) ∈ held h -> t' = t /\ m' = m.
  Proof.
    intros I H Hm H'. destruct (i_excl _ _ I _ _ _ _ H Hm) as (held' & Hp & Hn).
    rewrite Hp in H'. apply elem_of_cons in H' as [E|E]; [by inversion E|].
    by apply Hn in E.
  Qed.

  (** ** A new access comes after all earlier ones that matter *)

  Lemma guard_hb h tr t j u e1 o l m e2 :
    hinv h tr -> tr !! j = Some (u, e1) -> lockinv h tr o l j u e1 ->
    (t, m, o, l) ∈ held h -> m <> MO ->
    (m = MW \/ ~ is_plain_read e1) ->
    happens_before (tr ++ [(t, e2)]) j (length tr).
  Proof.
    intros I Hj [LW LR] Hh Hm Hc.
    assert (u = t \/ exists k m1 a, m1 <> MO /\ j < k /\ tr !! k = Some (u, ERel m1 o l) /\ k < a /\
      tr !! a = Some (t, EAcq m o l) /\ synchronizes (ERel m1 o l) (EAcq m o l)) as H.
    { destruct Hc as [->|Hc].
      - destruct LR as [(m' & Hm' & H)|(k & m1 & Hm1 & Hk & H & Ha)].
        + left. by destruct (excl_eq _ _ _ _ _ _ _ _ I Hh ltac:(done) H).
        + right. destruct (Ha _ Hh) as (a & ? & ?). exists k, m1, a. split_and!; try done.
          by destruct m1.
      - destruct LW as [?|[H|(k & Hk & H & Ha)]]; [done| |].
        + left. by destruct (excl_eq _ _ _ _ _ _ _ _ I H ltac:(done) Hh).
        + right. destruct (Ha _ _ Hh Hm) as (a & ? & ?). exists k, MW, a. split_and!; try done.
          by destruct m. }
    destruct H as [->|(k & m1 & a & ? & Hk & H1 & Ha & H2 & Hs)].
    - apply seen_next. by eapply seen_self.
    - apply seen_next. eapply seen_hb; [exact H2|].
      eapply hb_trans; [by eapply hb_same|]. by eapply hb_sync.
  Qed.

  (** Accesses that a goroutine may do now. *)
  Definition allowed (h : heap) (tr : list (nat * ev)) (t : nat) (e : ev) (o : nat) (f : string) : Prop :=
    knows tr t o /\
    exists c kd, objs h !! o = Some c /\ disc c f = Some kd /\
      match kd with
      | KImm => e = ERd o f
      | KAtomic => exists a, e = EAt a o f
      | KMine => exists n c, tr !! n = Some (t, ENew o c)
      | KLock l => (t, MW, o, l) ∈ held h \/ (is_plain_read e /\ (t, MR, o, l) ∈ held h)
      | KVia g l => disc c g = Some KImm /\ exists o1, (o, g, o1) ∈ cont h /\ (t, MW, o1, l) ∈ held h
      | KOnce n => (t, MO, o, n) ∈ held h \/ (is_plain_read e /\ passed h tr t o n)
      end.

  Lemma access_hb h tr t e o f j u e1 :
    hinv h tr -> touches e o f -> ~ is_new e -> allowed h tr t e o f ->
    tr !! j = Some (u, e1) -> touches e1 o f ->
    ~ (is_plain_read e1 /\ is_plain_read e) -> ~ (is_atomic e1 /\ is_atomic e) ->
    happens_before (tr ++ [(t, e)]) j (length tr).
  Proof.
    intros I Ht Hn [Hk (c & kd & Hc & Hd & A)] Hj Ht1 Hr Hat.
    assert (is_new e1 \/ ~ is_new e1) as [(o1 & c1 & ->)|Hn1].
    { destruct e1; try (right; intros (? & ? & ?); done). left. by eexists _, _. }
    { cbn in Ht1. subst o1. destruct Hk as (n & u' & c' & Hn' & Hs).
      rewrite <- (i_new1 _ _ I _ _ _ _ _ _ _ Hn' Hj). by apply seen_next. }
    destruct (i_acc _ _ I _ _ _ _ _ Hj Ht1 Hn1) as (c' & kd' & Hc' & Hd' & B).
    rewrite Hc in Hc'. injection Hc' as <-. rewrite Hd in Hd'. injection Hd' as <-.
    destruct kd as [| |l|g l|n|]; cbn in B.
    - subst. exfalso. apply Hr. split; by eexists _, _.
    - exfalso. destruct A as [a ->], B as [b ->]. apply Hat. split; by eexists _, _, _.
    - destruct A as [A|[A1 A]].
      + eapply guard_hb; [done..| |by left]. done.
      + eapply guard_hb; [done..| |right; intros ?; by apply Hr]. done.
    - destruct A as (Hg & o1 & Ho1 & A). destruct B as (_ & o2 & Ho2 & B).
      rewrite (i_imm _ _ I _ _ _ _ _ Hc Hg Ho2 Ho1) in B.
      eapply guard_hb; [done..| |by left]. done.
    - destruct A as [A|[A1 [A2 A3]]].
      + assert ((o, n) ∉ done h) as Hnd by (intros Hd'; by apply (i_once _ _ I _ _ t Hd')).
        destruct B as [B|[B _]]; [|done].
        destruct (excl_eq _ _ _ _ _ _ _ _ I A ltac:(done) B) as [-> _].
        apply seen_next. by eapply seen_self.
      + destruct B as [B|[_ [B|(k & Hk1 & B)]]].
        * by apply (i_once _ _ I _ _ u A2) in B.
        * exfalso. by apply Hr.
        * apply seen_next. destruct (A3 _ _ B) as [->|(p & Hp & A)].
          { by eapply seen_self. }
          eapply seen_hb; [exact A|]. eapply hb_trans; [by eapply hb_same|].
          by eapply hb_sync.
    - destruct A as (n & c1 & A). destruct B as (n2 & c2 & B).
      assert (n = n2) as <- by by eapply (i_new1 _ _ I). rewrite A in B. injection B as <- _.
      apply seen_next. by eapply seen_self.
  Qed.
End invariant.
