(** * Libraries that pass the check have no data races: the functions *)
From Verif Require Import RaceModel RaceSpec RaceCheck RaceProofs RaceProofs2.
From stdpp Require Import relations.
From Coq Require Import Lia.

(** ** Contexts *)

Lemma less_refl k : less k k.
Proof. split_and!; [done|set_solver..|done|set_solver|set_solver]. Qed.

Lemma less_trans k1 k2 k3 : less k1 k2 -> less k2 k3 -> less k1 k3.
Proof.
  intros (A1 & A2 & A3 & A4 & A5) (B1 & B2 & B3 & B4 & B5).
  split_and!; [auto|set_solver|congruence|set_solver|set_solver].
Qed.

Lemma lookup_cls_in g x c : lookup_cls g x = Some c -> (x, c) ∈ g.
Proof.
  induction g as [|[y d] g IH]; cbn; [done|]. destruct (String.eqb_spec x y) as [->|].
  - intros [= ->]. apply elem_of_list_here.
  - intros H. apply elem_of_list_further. auto.
Qed.

Lemma forallb_elem {A} (p : A -> bool) l x : forallb p l = true -> x ∈ l -> p x = true.
Proof. intros H Hx. rewrite forallb_forall in H. apply H. by apply elem_of_list_In. Qed.

Lemma lessb_less k1 k2 : lessb k1 k2 = true -> less k1 k2.
Proof.
  unfold lessb. rewrite !andb_true_iff. intros ((((H1 & H2) & H3) & H4) & H5).
  split_and!.
  - intros x c Hx. pose proof (forallb_elem _ _ _ H1 (lookup_cls_in _ _ _ Hx)) as H.
    apply bool_decide_eq_true in H. cbn in H. congruence.
  - intros a Ha. pose proof (forallb_elem _ _ _ H2 Ha) as H. by apply bool_decide_eq_true in H.
  - by apply bool_decide_eq_true in H3.
  - intros a Ha. pose proof (forallb_elem _ _ _ H4 Ha) as H. by apply bool_decide_eq_true in H.
  - intros a Ha. pose proof (forallb_elem _ _ _ H5 Ha) as H. by apply bool_decide_eq_true in H.
Qed.

Lemma lookup_filter (q : string * string -> bool) g x c :
  lookup_cls (List.filter q g) x = Some c -> q (x, c) = true.
Proof.
  intros H. apply lookup_cls_in in H. apply elem_of_list_In, filter_In in H. tauto.
Qed.

Lemma filter_sub {A} (q : A -> bool) l x : x ∈ List.filter q l -> x ∈ l /\ q x = true.
Proof. intros H. apply elem_of_list_In, filter_In in H as [H ?]. split; [by apply elem_of_list_In|done]. Qed.

Lemma common_less k1 k2 k : common k1 k2 = Some k -> less k k1 /\ less k k2.
Proof.
  unfold common. destruct (bool_decide (hld k1 = hld k2)) eqn:E; [|done].
  apply bool_decide_eq_true in E. intros [= <-].
  split; split_and!; cbn; try done.
  all: try (intros x c Hx; apply lookup_filter in Hx; apply andb_true_iff in Hx as [H1 H2];
    apply bool_decide_eq_true in H1; apply bool_decide_eq_true in H2; done).
  all: intros a Ha; apply filter_sub in Ha as [H1 H2]; apply bool_decide_eq_true in H2; done.
Qed.

Section functions.
  Variable disc : string -> string -> option kind.
  Hypothesis via : forall c f, via_ok disc c f.
  Local Notation hinv := (hinv disc).
  Local Notation grows := (grows disc).
  Local Notation allowed := (allowed disc).
  Local Notation facts := (facts disc).
  Local Notation wtk := (wtk disc).
  Local Notation check1 := (check1 disc).
  Local Notation check := (check disc).

  Lemma wtk_less k1 k2 b : less k1 k2 -> wtk k1 b -> wtk k2 b.
  Proof.
    intros HL H. destruct H as [k H|k k0 c b k3 H1 H2 H3].
    - apply wt_nil. destruct HL as (_ & _ & HL & _). congruence.
    - eapply wt_cons; [by eapply less_trans|done..].
  Qed.

  Lemma wtk_app k b k1 r : check k b = Some k1 -> wtk k1 r -> wtk k (b ++ r).
  Proof.
    unfold RaceCheck.check. revert k. induction b as [|c b IH]; intros k; cbn.
    - by intros [= ->].
    - destruct (check1 k c) as [k2|] eqn:E; [|done]. intros H H1.
      eapply wt_cons; [apply less_refl|exact E|]. by apply IH.
  Qed.

  Lemma wtk_start k b k1 : check k b = Some k1 -> hld k1 = [] -> wtk k b.
  Proof. intros H1 H2. rewrite <- (app_nil_r b). eapply wtk_app; [done|by apply wt_nil]. Qed.

  (** ** What is known stays known *)

  Lemma facts_less h tr t e k1 k2 : less k1 k2 -> facts h tr t e k2 -> facts h tr t e k1.
  Proof.
    intros (A1 & A2 & _ & A4 & A5) (B1 & B2 & B3 & B4). split_and!.
    - intros x c H. by apply B1, A1.
    - intros v f x H. by apply B2, A2.
    - intros v n H. by apply B3, A4.
    - intros v H. by apply B4, A5.
  Qed.

  Definition no_rerun (h : heap) (x : list (nat * ev)) : Prop :=
    forall u o n, (u, ERel MO o n) ∈ x -> (o, n) ∉ done h.

  Lemma passed_ext h h' tr x t o n :
    grows h h' -> no_rerun h x -> passed h tr t o n -> passed h' (tr ++ x) t o n.
  Proof.
    intros (_ & _ & G) N [H1 H2]. split; [by apply G|]. intros k u H.
    apply lookup_app_Some in H as [H|[_ H]].
    - destruct (H2 _ _ H) as [->|(p & ? & ?)]; [by left|right]. exists p.
      split; [done|by apply lookup_ext].
    - exfalso. apply elem_of_list_lookup_2 in H. by apply (N _ _ _ H).
  Qed.

  Lemma facts_ext h h' tr x t e k :
    grows h h' -> no_rerun h x -> facts h tr t e k -> facts h' (tr ++ x) t e k.
  Proof.
    intros G N (B1 & B2 & B3 & B4). split_and!.
    - intros v c H. destruct (B1 _ _ H) as (o & ? & ? & ?). exists o.
      split_and!; [done|by eapply grows_obj|by apply knows_ext].
    - intros v f y H. destruct (B2 _ _ _ H) as (o & o' & c & ? & ? & ? & ? & ?).
      exists o, o', c. split_and!; try done; [by eapply grows_obj|]. by eapply (proj1 (proj2 G)).
    - intros v n H. destruct (B3 _ _ H) as (o & ? & ?). exists o.
      split; [done|by eapply passed_ext].
    - intros v H. destruct (B4 _ H) as (o & n & c & ? & ?). exists o, n, c.
      split; [done|by apply lookup_ext].
  Qed.

  (** ** Locks *)

  Lemma of_thread_in t x l : x ∈ of_thread t l <-> x ∈ l /\ x.1.1.1 = t.
  Proof.
    unfold of_thread. rewrite !elem_of_list_In, filter_In, Nat.eqb_eq. done.
  Qed.

  Lemma of_thread_perm t l1 l2 : l1 ≡ₚ l2 -> of_thread t l1 ≡ₚ of_thread t l2.
  Proof.
    unfold of_thread. induction 1; cbn; [done|..].
    - by destruct (Nat.eqb _ _); [apply Permutation_skip|].
    - destruct (Nat.eqb _ _), (Nat.eqb _ _); done || apply Permutation_swap.
    - by etransitivity.
  Qed.

  Definition moves (h h' : heap) (t : nat) (cs cs' : list (mode * nat * string)) : Prop :=
    (cs' = cs /\ held h' = held h) \/
    (exists y, cs' = y :: cs /\ held h' = entry t y :: held h) \/
    (exists y, cs ≡ₚ y :: cs' /\ held h ≡ₚ entry t y :: held h').

  Lemma moves_self h h' t cs cs' r :
    moves h h' t cs cs' -> map (entry t) (cs ++ r) ⊆+ of_thread t (held h) ->
    map (entry t) (cs' ++ r) ⊆+ of_thread t (held h').
  Proof.
    intros [[-> ->]|[(y & -> & ->)|(y & Hc & Hh)]] H; [done| |].
    - cbn. rewrite Nat.eqb_refl. by apply submseteq_skip.
    - assert (map (entry t) ((y :: cs') ++ r) ⊆+ of_thread t (entry t y :: held h')) as H1.
      { rewrite <- (of_thread_perm _ _ _ Hh). etransitivity; [|exact H].
        apply Permutation_submseteq. apply fmap_Permutation. by rewrite Hc. }
      cbn in H1. rewrite Nat.eqb_refl in H1.
      by apply (submseteq_app_inv_l _ _ [entry t y]) in H1.
  Qed.

  Lemma moves_other h h' t u cs cs' :
    moves h h' t cs cs' -> u <> t -> of_thread u (held h) ≡ₚ of_thread u (held h').
  Proof.
    intros [[_ ->]|[(y & _ & ->)|(y & _ & Hh)]] Hu; [done| |].
    - cbn. destruct (Nat.eqb_spec t u); [congruence|done].
    - rewrite (of_thread_perm _ _ _ Hh). cbn. destruct (Nat.eqb_spec t u); [congruence|done].
  Qed.

  Lemma holds_held h t e k cs m v l o :
    holds k m v l = true -> Forall2 (claim e) (hld k) cs ->
    map (entry t) cs ⊆+ of_thread t (held h) -> lookup_var e v = Some o ->
    (t, m, o, l) ∈ held h.
  Proof.
    intros H Hc Hs Hv. apply bool_decide_eq_true in H.
    apply elem_of_list_lookup in H as [i Hi].
    destruct (Forall2_lookup_l _ _ _ _ _ Hc Hi) as ([[m' o'] l'] & Hi' & E1 & E2 & E3).
    cbn in *. subst. rewrite E2 in Hv. injection Hv as ->.
    assert (entry t (m', o, l') ∈ of_thread t (held h)) as Hin.
    { eapply elem_of_submseteq; [|exact Hs]. apply elem_of_list_fmap.
      exists (m', o, l'). split; [done|]. by eapply elem_of_list_lookup_2. }
    by apply of_thread_in in Hin as [? _].
  Qed.

  (** ** Accesses *)

  Lemma kind_of_inv h tr t e k v f kd o :
    facts h tr t e k -> kind_of disc k v f = Some kd -> lookup_var e v = Some o ->
    exists c, objs h !! o = Some c /\ disc c f = Some kd /\ knows tr t o.
  Proof.
    intros (F & _) H Hv. unfold kind_of in H. destruct (lookup_cls (cls k) v) as [c|] eqn:E; [|done].
    cbn in H. destruct (F _ _ E) as (o' & H1 & H2 & H3). rewrite H1 in Hv. injection Hv as ->.
    by exists c.
  Qed.

  Lemma via_held h tr t e k cs v g l o :
    facts h tr t e k -> Forall2 (claim e) (hld k) cs ->
    map (entry t) cs ⊆+ of_thread t (held h) -> lookup_var e v = Some o ->
    existsb (fun a => match a with (v1, g1, x) =>
      String.eqb v1 v && String.eqb g1 g && holds k MW x l end) (ali k) = true ->
    exists o1, (o, g, o1) ∈ cont h /\ (t, MW, o1, l) ∈ held h.
  Proof.
    intros (_ & F & _) Hc Hs Hv H. apply existsb_exists in H as ([[v1 g1] x] & Hin & H).
    rewrite !andb_true_iff in H. destruct H as [[H1 H2] H3].
    apply String.eqb_eq in H1, H2. subst. apply elem_of_list_In in Hin.
    destruct (F _ _ _ Hin) as (o' & o1 & c & A1 & A2 & A3 & A4 & A5).
    rewrite A1 in Hv. injection Hv as ->. exists o1. split; [done|]. by eapply holds_held.
  Qed.

  Lemma read_allowed h tr t e k cs v f o :
    facts h tr t e k -> Forall2 (claim e) (hld k) cs ->
    map (entry t) cs ⊆+ of_thread t (held h) -> lookup_var e v = Some o ->
    may_read disc k v f = true -> allowed h tr t (ERd o f) o f.
  Proof.
    intros F Hc Hs Hv H. unfold may_read in H.
    destruct (kind_of disc k v f) as [kd|] eqn:E; [|done].
    destruct (kind_of_inv _ _ _ _ _ _ _ _ _ F E Hv) as (c & Ho & Hd & Hk).
    assert (is_plain_read (ERd o f)) as Hr by by eexists _, _.
    split; [done|]. exists c, kd. split; [done|]. split; [done|].
    destruct kd as [| |l|g l|n|]; [done|done|..].
    - apply orb_true_iff in H as [H|H].
      + left. by eapply holds_held.
      + right. split; [done|]. by eapply holds_held.
    - split; [pose proof (via c f) as Hvia; unfold via_ok in Hvia; by rewrite Hd in Hvia|].
      by eapply via_held.
    - apply orb_true_iff in H as [H|H].
      + left. by eapply holds_held.
      + right. split; [done|]. apply bool_decide_eq_true in H.
        destruct F as (_ & _ & F & _). destruct (F _ _ H) as (o' & H1 & H2).
        rewrite H1 in Hv. by injection Hv as ->.
    - apply bool_decide_eq_true in H. destruct F as (_ & _ & _ & F).
      destruct (F _ H) as (o' & n & c' & H1 & H2). rewrite H1 in Hv. injection Hv as ->.
      by exists n, c'.
  Qed.

  Lemma write_allowed h tr t e k cs v f o :
    facts h tr t e k -> Forall2 (claim e) (hld k) cs ->
    map (entry t) cs ⊆+ of_thread t (held h) -> lookup_var e v = Some o ->
    may_write disc k v f = true -> allowed h tr t (EWr o f) o f.
  Proof.
    intros F Hc Hs Hv H. unfold may_write in H.
    destruct (kind_of disc k v f) as [kd|] eqn:E; [|done].
    destruct (kind_of_inv _ _ _ _ _ _ _ _ _ F E Hv) as (c & Ho & Hd & Hk).
    split; [done|]. exists c, kd. split; [done|]. split; [done|].
    destruct kd as [| |l|g l|n|]; [done|done|..].
    - left. by eapply holds_held.
    - split; [pose proof (via c f) as Hvia; unfold via_ok in Hvia; by rewrite Hd in Hvia|].
      by eapply via_held.
    - left. by eapply holds_held.
    - apply bool_decide_eq_true in H. destruct F as (_ & _ & _ & F).
      destruct (F _ H) as (o' & n & c' & H1 & H2). rewrite H1 in Hv. injection Hv as ->.
      by exists n, c'.
  Qed.

  Lemma atomic_allowed h tr t e k v f o :
    facts h tr t e k -> lookup_var e v = Some o ->
    may_atomic disc k v f = true -> forall a, allowed h tr t (EAt a o f) o f.
  Proof.
    intros F Hv H a. unfold may_atomic in H.
    destruct (kind_of disc k v f) as [kd|] eqn:E; [|done].
    destruct (kind_of_inv _ _ _ _ _ _ _ _ _ F E Hv) as (c & Ho & Hd & Hk).
    split; [done|]. exists c, kd. split; [done|]. split; [done|]. destruct kd; [done|by exists a|done..].
  Qed.

  Lemma known_var_inv h tr t e k y :
    facts h tr t e k -> known_var k y = true -> exists o, lookup_var e y = Some o /\ knows tr t o.
  Proof.
    intros (F & _) H. unfold known_var in H. destruct (lookup_cls (cls k) y) as [c|] eqn:E; [|done].
    destruct (F _ _ E) as (o & ? & _ & ?). by exists o.
  Qed.

  Lemma stores_inv e o fs cs :
    stores e o fs = Some cs ->
    map (fun p => p.1.2) cs = fs.*1 /\
    (forall p, p ∈ cs -> exists f y o', p = (o, f, o') /\ (f, y) ∈ fs /\ lookup_var e y = Some o').
  Proof.
    unfold stores. revert cs. induction fs as [|[f y] fs IH]; intros cs; cbn.
    - intros [= <-]. split; [done|]. intros p Hp. by apply elem_of_nil in Hp.
    - destruct (lookup_var e y) as [o'|] eqn:E; cbn; [|done].
      destruct (mapM _ fs) as [cs'|] eqn:E2; cbn; [|done]. intros [= <-].
      destruct (IH _ eq_refl) as [IH1 IH2]. split; [cbn; by rewrite IH1|].
      intros p Hp. apply elem_of_cons in Hp as [->|Hp].
      + exists f, y, o'. split_and!; [done|apply elem_of_list_here|done].
      + destruct (IH2 _ Hp) as (f1 & y1 & o1 & ? & ? & ?). exists f1, y1, o1.
        split_and!; [done|by apply elem_of_list_further|done].
  Qed.

  Lemma rebind_facts h tr t e k x c k1 o :
    facts h tr t e k -> rebind k x c = Some k1 -> objs h !! o = Some c -> knows tr t o ->
    facts h tr t ((x, o) :: e) k1.
  Proof.
    intros (B1 & B2 & B3 & B4) H Ho Hk. unfold rebind in H. destruct (existsb _ _); [done|].
    injection H as <-. split_and!; cbn [cls ali psd own].
    - intros y d H. cbn in H |- *. destruct (String.eqb_spec y x) as [->|].
      + injection H as <-. by exists o.
      + by apply B1.
    - intros v f y H. apply filter_sub in H as [H H1]. apply andb_true_iff in H1 as [H1 H2].
      apply negb_true_iff in H1, H2. destruct (B2 _ _ _ H) as (o1 & o2 & d & A1 & A2 & A3).
      exists o1, o2, d. cbn. rewrite H1, H2. auto.
    - intros v n H. apply filter_sub in H as [H H1]. apply negb_true_iff in H1. cbn in H1.
      destruct (B3 _ _ H) as (o1 & A1 & A2). exists o1. cbn. rewrite H1. auto.
    - intros v H. apply filter_sub in H as [H H1]. apply negb_true_iff in H1.
      destruct (B4 _ H) as (o1 & n & d & A1 & A2). exists o1, n, d. cbn. rewrite H1. auto.
  Qed.

  Lemma rebind_claims e k x c k1 o cs :
    rebind k x c = Some k1 -> Forall2 (claim e) (hld k) cs -> Forall2 (claim ((x, o) :: e)) (hld k1) cs.
  Proof.
    intros H Hc. unfold rebind in H. destruct (existsb _ _) eqn:E; [done|]. injection H as <-. cbn.
    apply Forall2_same_length_lookup_2; [by eapply Forall2_length|].
    intros i [[m v] l] y Hx Hy. destruct (Forall2_lookup_lr _ _ _ _ _ _ Hc Hx Hy) as (A1 & A2 & A3).
    split; [done|]. split; [|done]. cbn in *.
    destruct (String.eqb_spec v x) as [->|]; [|done]. exfalso.
    assert (existsb (fun h : mode * string * string => let '(_, v, _) := h in (v =? x)%string) (hld k) = true) as E2.
    { apply existsb_exists. exists (m, x, l). split; [|apply String.eqb_refl].
      apply elem_of_list_In. by eapply elem_of_list_lookup_2. }
    congruence.
  Qed.

  Lemma bind_field_facts h tr t e k v f x c k1 o o' :
    facts h tr t e k -> bind_field disc k v f x c = Some k1 ->
    lookup_var e v = Some o -> (o, f, o') ∈ cont h ->
    objs h !! o' = Some c -> knows tr t o' -> facts h tr t ((x, o') :: e) k1.
  Proof.
    intros F H Hv Hin Ho Hk. unfold bind_field in H.
    destruct (rebind k x c) as [k2|] eqn:E; [|done]. cbn in H. injection H as <-.
    pose proof (rebind_facts _ _ _ _ _ _ _ _ _ F E Ho Hk) as F2.
    destruct (kind_of disc k v f) as [kd|] eqn:Ek; [|done]. destruct kd; try done.
    destruct (String.eqb_spec v x) as [|Hne]; [done|].
    destruct (kind_of_inv _ _ _ _ _ _ _ _ _ F Ek Hv) as (c1 & H1 & H2 & _).
    destruct F2 as (B1 & B2 & B3 & B4). split_and!; try done. cbn [ali add_alias].
    intros v1 f1 x1 Hin1. apply elem_of_cons in Hin1 as [E1|Hin1]; [|by apply B2].
    inversion E1; subst. exists o, o', c1. cbn. rewrite String.eqb_refl.
    apply String.eqb_neq in Hne. rewrite Hne. auto.
  Qed.

  Lemma bind_field_hld k v f x c k1 :
    bind_field disc k v f x c = Some k1 -> exists k2, rebind k x c = Some k2 /\ hld k1 = hld k2.
  Proof.
    unfold bind_field. destruct (rebind k x c) as [k2|]; [|done]. cbn. intros [= <-].
    exists k2. split; [done|]. destruct (kind_of disc k v f) as [[]|]; try done.
    by destruct (String.eqb v x).
  Qed.

  Lemma remove1_perm x l l' : remove1 x l = Some l' -> l ≡ₚ x :: l'.
  Proof.
    revert l'. induction l as [|y l IH]; intros l'; cbn; [done|].
    destruct (bool_decide (y = x)) eqn:E.
    - apply bool_decide_eq_true in E. subst. by intros [= ->].
    - destruct (remove1 x l) as [l2|]; cbn; [|done]. intros [= <-].
      rewrite (IH _ eq_refl). apply Permutation_swap.
  Qed.

  (** What is read from a field has been allocated before. *)
  Lemma content_known h tr t e o f o' c :
    hinv h tr -> touches e o f -> ~ is_new e -> allowed h tr t e o f ->
    (forall a, e = EAt a o f -> reads a) ->
    (o, f, o') ∈ cont h -> objs h !! o' = Some c -> knows (tr ++ [(t, e)]) t o'.
  Proof.
    intros I Ht Hn A Hre Hin Ho.
    destruct (i_cont _ _ _ I _ _ _ Hin) as (j & n & tj & ej & tn & c1 & H1 & H2 & H3 & HL & H4 & H5).
    exists n, tn, c1. split; [by apply lookup_ext|].
    eapply seen_hb; [apply last_event|]. eapply hb_trans; [apply hb_ext, H5|].
    assert ((exists a b, ej = EAt a o f /\ e = EAt b o f) \/ ~ (is_atomic ej /\ is_atomic e)) as [(a & b & -> & ->)|Hat].
    { destruct ej as [| | |a o1 f1| | | | | |]; try (right; intros [(? & ? & ? & ?) _]; done).
      destruct e as [| | |b o2 f2| | | | | |]; try (right; intros [_ (? & ? & ? & ?)]; done).
      left. cbn in H2, Ht. destruct H2 as [-> ->], Ht as [-> ->]. by exists a, b. }
    - destruct (HL a eq_refl) as [HL1 HL2]. pose proof (lookup_lt_Some _ _ _ H1) as Hlt.
      apply hb_observes; [done|]. exists tj, a, t, b, o, f.
      split_and!; [by apply lookup_ext|apply last_event|done|by apply Hre|].
      intros k u d Hk1 Hk2 Hk. rewrite lookup_app_l in Hk by done. by eapply HL2.
    - eapply access_hb; try done. intros [? _]. done.
  Qed.
End functions.
