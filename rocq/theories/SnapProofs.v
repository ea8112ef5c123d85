From Verif Require Import Base Conc SnapModel SnapSpec.

Section slices.
  Context {A Y : Type}.
  Context (zero : A) (grow : nat -> nat).
  Local Notation run := (@s_exec A Y zero grow).
  Local Notation step := (@s_step A Y zero grow).

  Definition keeps (i L : nat) (m m' : gmem A) : Prop :=
    forall p o a, m !! p = Some (o, a) -> exists a', m' !! p = Some (o, a') /\ length a' = length a /\ (o = None -> take L a' = take L a) /\ (forall j, o = Some j -> j <> i -> a' = a).
  Lemma keeps_refl i L m : keeps i L m m.
  Proof. intros p o a E. exists a. auto. Qed.
  Lemma keeps_alloc i L (m : gmem A) x : keeps i L m (m ++ [x]).
  Proof. intros p o a E. exists a. split; [apply lookup_app_l_Some, E|auto]. Qed.
  Lemma gset_eq (m : gmem A) p o a k x : m !! p = Some (o, a) -> gset m p k x = <[p := (o, <[k := x]> a)]> m.
  Proof. intros E. unfold gset. rewrite E. reflexivity. Qed.
  Lemma keeps_shared i L m p a x : m !! p = Some (None, a) -> keeps i L m (gset m p L x).
  Proof.
    intros E q o b Eq. rewrite (gset_eq _ _ _ _ _ _ E). destruct (decide (p = q)) as [<-|Hne].
    - rewrite E in Eq. injection Eq as <- <-. exists (<[L := x]> a). rewrite list_lookup_insert by (eapply lookup_lt_Some; exact E). split; [reflexivity|]. split; [apply insert_length|]. split; [|discriminate].
      intros _. apply take_insert. lia.
    - rewrite list_lookup_insert_ne by exact Hne. exists b. auto.
  Qed.
  Lemma keeps_private i L (m : gmem A) p a k x : m !! p = Some (Some i, a) -> keeps i L m (gset m p k x).
  Proof.
    intros E q o b Eq. rewrite (gset_eq _ _ _ _ _ _ E). destruct (decide (p = q)) as [<-|Hne].
    - rewrite E in Eq. injection Eq as <- <-. exists (<[k := x]> a). rewrite list_lookup_insert by (eapply lookup_lt_Some; exact E). split; [reflexivity|]. split; [apply insert_length|]. split; [discriminate|].
      intros j Hj. injection Hj as <-. congruence.
    - rewrite list_lookup_insert_ne by exact Hne. exists b. auto.
  Qed.

  Definition holds (m : gmem A) (s : gslice) (xs : list A) : Prop :=
    exists a, m !! gs_ptr s = Some (None, a) /\ gs_len s = length xs /\ take (length xs) a = xs.
  Definition full (m : gmem A) (s : gslice) (xs : list A) : Prop :=
    exists a, m !! gs_ptr s = Some (None, a) /\ gs_len s = length xs /\ take (length xs) a = xs /\ length a = gs_cap s.
  Lemma full_holds m s xs : full m s xs -> holds m s xs.
  Proof. intros (a & H1 & H2 & H3 & _). exists a. auto. Qed.
  Lemma full_le m s xs : full m s xs -> (length xs <= gs_cap s)%nat.
  Proof. intros (a & _ & _ & H & <-). rewrite <- H at 1. rewrite take_length. lia. Qed.
  Lemma take_take_le {B} (l l' : list B) n k : (k <= n)%nat -> take n l = take n l' -> take k l = take k l'.
  Proof. intros H E. apply (f_equal (take k)) in E. rewrite !take_take, !Nat.min_l in E by lia. exact E. Qed.
  Lemma holds_keeps i L m m' s xs : keeps i L m m' -> (length xs <= L)%nat -> holds m s xs -> holds m' s xs.
  Proof.
    intros Hk Hl (a & H1 & H2 & H3). destruct (Hk _ _ _ H1) as (a' & E & El & Et & _). exists a'. split; [exact E|]. split; [exact H2|]. rewrite <- H3 at 2. eapply take_take_le; [exact Hl|auto].
  Qed.
  Lemma full_keeps i L m m' s xs : keeps i L m m' -> (length xs <= L)%nat -> full m s xs -> full m' s xs.
  Proof.
    intros Hk Hl (a & H1 & H2 & H3 & H4). destruct (Hk _ _ _ H1) as (a' & E & El & Et & _). exists a'. split; [exact E|]. split; [exact H2|]. split; [|lia]. rewrite <- H3 at 2. eapply take_take_le; [exact Hl|auto].
  Qed.

  (** The append. *)
  Lemma gappend_full m s xs x : full m s xs ->
    let m' := fst (gappend zero grow m s x) in let s' := snd (gappend zero grow m s x) in
    full m' s' (xs ++ [x]) /\ (forall i, keeps i (length xs) m m').
  Proof.
    intros (a & H1 & H2 & H3 & H4). unfold gappend. destruct (Nat.ltb_spec (gs_len s) (gs_cap s)) as [Hlt|Hge]; cbn [fst snd].
    - split; [|intros i; rewrite H2; eapply keeps_shared; exact H1]. rewrite (gset_eq _ _ _ _ _ _ H1). exists (<[gs_len s := x]> a). cbn.
      rewrite list_lookup_insert by (eapply lookup_lt_Some; exact H1). split; [reflexivity|]. split; [rewrite app_length; cbn; lia|]. split; [|rewrite insert_length; exact H4].
      rewrite app_length. cbn. rewrite <- H2. replace (gs_len s + 1)%nat with (S (gs_len s)) by lia.
      rewrite (take_S_r _ _ x) by (apply list_lookup_insert; lia). rewrite take_insert by lia. rewrite H2, H3. reflexivity.
    - split; [|intros i; apply keeps_alloc]. exists (gcontents m (gs_ptr s) (gs_len s) ++ x :: repeat zero (Nat.max (S (gs_len s)) (grow (S (gs_len s))) - S (gs_len s))). cbn [gs_ptr gs_len gs_cap].
      assert (Ec : gcontents m (gs_ptr s) (gs_len s) = xs) by (unfold gcontents, garray; rewrite H1, H2; exact H3).
      rewrite Ec. split; [rewrite lookup_app_r, Nat.sub_diag by lia; reflexivity|]. split; [rewrite app_length; cbn; lia|]. split.
      + change (x :: repeat zero (Nat.max (S (gs_len s)) (grow (S (gs_len s))) - S (gs_len s))) with ([x] ++ repeat zero (Nat.max (S (gs_len s)) (grow (S (gs_len s))) - S (gs_len s))). rewrite app_assoc. apply take_app.
      + rewrite app_length. cbn [length]. rewrite repeat_length, H2. lia.
  Qed.

  (** ** Invariant *)
  Section shape.
    Context (W : nat -> nat -> Prop) (m : gmem A) (pub : list A) (value : gslice) (lock : option nat) (log : list nat).
    Definition snap (i : nat) (sl : gslice) : Prop := W i (gs_len sl) /\ (gs_len sl <= length pub)%nat /\ holds m sl (take (gs_len sl) pub).
    Definition shape (i : nat) (t : sthread A Y) : Prop :=
      match st_call t with
      | SAppend x =>
          match st_pc t with
          | W_lock => i ∉ log
          | W_write sl => sl = value /\ lock = Some i /\ i ∉ log
          | W_publish sl => full m sl (pub ++ [x]) /\ lock = Some i /\ i ∉ log
          | W_unlock => lock = Some i /\ i ∈ log
          | W_done => i ∈ log
          | _ => False
          end
      | SCopy =>
          i ∉ log /\
          match st_pc t with
          | C_lock => True
          | C_load => lock = Some i
          | C_unlock sl => lock = Some i /\ snap i sl
          | C_alloc sl => snap i sl
          | C_copy sl dst k => snap i sl /\ (exists a, m !! dst = Some (Some i, a) /\ (k <= gs_len sl <= length a)%nat /\ take k a = take k pub)
          | C_done None => W i 0%nat
          | C_done (Some (dst, n)) => W i n /\ (n <= length pub)%nat /\ exists a, m !! dst = Some (Some i, a) /\ take n a = take n pub
          | _ => False
          end
      | SSearch f =>
          i ∉ log /\
          match st_pc t with
          | S_load => True
          | S_at sl k => snap i sl /\ (k <= gs_len sl)%nat /\ Forall (fun x => f x = None) (drop k (take (gs_len sl) pub))
          | S_done res => exists n, W i n /\ (n <= length pub)%nat /\ last_accepted f (take n pub) res
          | _ => False
          end
      end.
  End shape.
  Definition isapp (ts : list (sthread A Y)) (i : nat) (x : A) : Prop := exists t, ts !! i = Some t /\ st_call t = SAppend x.
  Record sinv (W : nat -> nat -> Prop) (pub : list A) (s : sshared A) (ts : list (sthread A Y)) : Prop := {
    SI_nodup : NoDup (ss_log s);
    SI_log : Forall2 (isapp ts) (ss_log s) pub;
    SI_value : full (ss_mem s) (ss_value s) pub;
    SI_shape : forall i t, ts !! i = Some t -> shape W (ss_mem s) pub (ss_value s) (ss_lock s) (ss_log s) i t
  }.

  Definition loaded (pc : spc Y) : bool := match pc with C_unlock _ | C_alloc _ | C_copy _ _ _ | C_done _ | S_at _ _ | S_done _ => true | _ => false end.

  (** Another thread's step leaves [j] in shape. *)
  Lemma shape_other (W W' : nat -> nat -> Prop) m m' pub pub' value value' lock lock' log log' i j t :
    j <> i -> keeps i (length pub) m m' -> (exists ext, pub' = pub ++ ext) -> (forall k, k ∈ log' <-> k ∈ log \/ (k = i /\ k ∈ log')) ->
    (loaded (st_pc t) = true -> forall n, (n <= length pub')%nat -> W j n -> W' j n) ->
    (lock = Some j -> value' = value /\ lock' = Some j /\ pub' = pub /\ forall p a, m !! p = Some (None, a) -> m' !! p = Some (None, a)) ->
    shape W m pub value lock log j t -> shape W' m' pub' value' lock' log' j t.
  Proof.
    intros Hne Hk [ext Hpub] Hlog HW Hlock.
    assert (Hin : j ∈ log <-> j ∈ log') by (rewrite (Hlog j); split; [auto|intros [?|[? _]]; [assumption|congruence]]).
    assert (Hlen : (length pub <= length pub')%nat) by (rewrite Hpub, app_length; lia).
    assert (Htake : forall n, (n <= length pub)%nat -> take n pub' = take n pub) by (intros n Hn; rewrite Hpub, take_app_le by lia; reflexivity).
    assert (Hsnap : loaded (st_pc t) = true -> forall sl, snap W m pub j sl -> snap W' m' pub' j sl).
    { intros Hl sl (H1 & H2 & H3). split; [apply HW; auto; lia|]. split; [lia|]. rewrite Htake by exact H2. eapply holds_keeps; [exact Hk| |exact H3]. rewrite take_length. lia. }
    unfold shape. destruct (st_call t) as [x| |f].
    - destruct (st_pc t); try tauto.
      + intros (-> & Hl & Hi). destruct (Hlock Hl) as (-> & -> & _). tauto.
      + intros (Hf & Hl & Hi). destruct (Hlock Hl) as (_ & -> & -> & Hm). split; [|tauto]. destruct Hf as (a & H1 & H2). exists a. split; [apply Hm, H1|exact H2].
    - rewrite Hin. intros [Hi Hs]. split; [exact Hi|]. destruct (st_pc t) as [| | | | | | |sl|sl|sl dst k|[[dst n]|]| | |] eqn:E; try contradiction; auto.
      + destruct (Hlock Hs) as (_ & -> & _). reflexivity.
      + destruct Hs as [Hl Hs]. destruct (Hlock Hl) as (_ & -> & _). split; [reflexivity|]. apply Hsnap; auto.
      + destruct Hs as [Hs (a & H1 & H2 & H3)]. split; [apply Hsnap; auto|]. destruct (Hk _ _ _ H1) as (a' & E1 & E2 & _ & E3). rewrite (E3 j eq_refl Hne) in E1. exists a. split; [exact E1|]. split; [lia|].
        rewrite Htake by (destruct Hs as (_ & Hx & _); lia). exact H3.
      + destruct Hs as (H1 & H2 & a & H3 & H4). split; [apply HW; auto; lia|]. split; [lia|]. destruct (Hk _ _ _ H3) as (a' & E1 & E2 & _ & E3). rewrite (E3 j eq_refl Hne) in E1. exists a. split; [exact E1|]. rewrite Htake by exact H2. exact H4.
      + apply HW; auto; lia.
    - rewrite Hin. intros [Hi Hs]. split; [exact Hi|]. destruct (st_pc t) as [| | | | | | |sl|sl|sl dst k|[[dst n]|]| |sl k|res] eqn:E; try contradiction; auto.
      + destruct Hs as (H1 & H2 & H3). split; [apply Hsnap; auto|]. split; [exact H2|]. rewrite Htake by (destruct H1 as (_ & Hx & _); lia). exact H3.
      + destruct Hs as (n & H1 & H2 & H3). exists n. split; [apply HW; auto; lia|]. split; [lia|]. rewrite Htake by exact H2. exact H3.
  Qed.
  Lemma scall_step i s t : st_call (snd (step i s t)) = st_call t.
  Proof.
    destruct t as [c pc]. unfold s_step, set_pc. cbn [st_pc st_call]. destruct pc as [| | | | | | |sl|sl|sl dst k|ret| |sl k|res]; try reflexivity.
    - destruct (ss_lock s); reflexivity.
    - destruct c; reflexivity.
    - destruct (ss_lock s); reflexivity.
    - destruct (gs_len sl); reflexivity.
    - destruct (_ <? _); reflexivity.
    - destruct k as [|k]; [reflexivity|]. destruct c as [x| |f]; try reflexivity. destruct (f _); reflexivity.
  Qed.
  Lemma isapp_mono (ts : list (sthread A Y)) i t' : (forall t, ts !! i = Some t -> st_call t' = st_call t) -> forall j x, isapp ts j x -> isapp (<[i := t']> ts) j x.
  Proof.
    intros Hc j x (t & Ht & Ec). destruct (decide (i = j)) as [<-|Hne].
    - exists t'. rewrite list_lookup_insert by (eapply lookup_lt_Some; exact Ht). split; [reflexivity|]. rewrite (Hc _ Ht). exact Ec.
    - exists t. rewrite list_lookup_insert_ne by exact Hne. auto.
  Qed.
  (** Assembling the invariant after a step of thread [i]. *)
  Lemma sinv_make (W W' : nat -> nat -> Prop) pub ext s ts i t t' s' :
    sinv W pub s ts -> ts !! i = Some t -> st_call t' = st_call t ->
    keeps i (length pub) (ss_mem s) (ss_mem s') ->
    ((ss_log s' = ss_log s /\ ext = []) \/ (exists x, ss_log s' = ss_log s ++ [i] /\ i ∉ ss_log s /\ ext = [x] /\ st_call t = SAppend x)) ->
    (forall j u, ts !! j = Some u -> j <> i -> loaded (st_pc u) = true -> forall n, (n <= length (pub ++ ext))%nat -> W j n -> W' j n) ->
    (forall j, j <> i -> ss_lock s = Some j -> ss_value s' = ss_value s /\ ss_lock s' = Some j /\ pub ++ ext = pub /\ forall p a, ss_mem s !! p = Some (None, a) -> ss_mem s' !! p = Some (None, a)) ->
    full (ss_mem s') (ss_value s') (pub ++ ext) ->
    shape W' (ss_mem s') (pub ++ ext) (ss_value s') (ss_lock s') (ss_log s') i t' ->
    sinv W' (pub ++ ext) s' (<[i := t']> ts).
  Proof.
    intros H Hi Hc Hk Hlog HW Hlock Hval Hsh. constructor.
    - destruct Hlog as [[-> _]|(x & -> & Hn & _)]; [apply (SI_nodup _ _ _ _ H)|]. apply NoDup_app. split; [apply (SI_nodup _ _ _ _ H)|]. split; [|apply NoDup_singleton]. intros j Hj Hj'. apply elem_of_list_singleton in Hj'. congruence.
    - assert (Hm : Forall2 (isapp (<[i := t']> ts)) (ss_log s) pub).
      { eapply Forall2_impl; [apply (SI_log _ _ _ _ H)|]. apply isapp_mono. intros u Hu. congruence. }
      destruct Hlog as [[-> ->]|(x & -> & Hn & -> & Hx)]; [rewrite app_nil_r; exact Hm|]. apply Forall2_app; [exact Hm|]. constructor; [|constructor]. exists t'. split; [apply list_lookup_insert; eapply lookup_lt_Some; exact Hi|congruence].
    - exact Hval.
    - intros j u Hu. apply list_lookup_insert_Some in Hu as [(<- & <- & _)|[Hne Hu]]; [exact Hsh|].
      eapply shape_other; [| | | | | |eapply SI_shape; [exact H|exact Hu]].
      + intros E. apply Hne. symmetry. exact E.
      + exact Hk.
      + eauto.
      + intros k. destruct Hlog as [[-> _]|(x & -> & Hn & _)]; [tauto|]. rewrite elem_of_app, elem_of_list_singleton. tauto.
      + intros Hl. apply (HW j u Hu); [congruence|exact Hl].
      + intros Hl. apply Hlock; [congruence|exact Hl].
  Qed.

  Lemma last_accepted_snoc (f : A -> option Y) (xs xs2 : list A) x y : f x = Some y -> Forall (fun x => f x = None) xs2 -> last_accepted f (xs ++ x :: xs2) (Some y).
  Proof. intros H1 H2. eapply la_some; [reflexivity|exact H1|exact H2]. Qed.
  Lemma log_length W pub s ts : sinv W pub s ts -> length (ss_log s) = length pub.
  Proof. intros H. eapply Forall2_length, (SI_log _ _ _ _ H). Qed.
  Lemma value_len W pub s ts : sinv W pub s ts -> gs_len (ss_value s) = length pub.
  Proof. intros H. destruct (SI_value _ _ _ _ H) as (a & _ & E & _). exact E. Qed.
  Lemma value_snap (W W' : nat -> nat -> Prop) pub s ts i : sinv W pub s ts -> W' i (length (ss_log s)) -> snap W' (ss_mem s) pub i (ss_value s).
  Proof.
    intros H HW. pose proof (value_len _ _ _ _ H) as E. rewrite (log_length _ _ _ _ H) in HW. split; [rewrite E; exact HW|]. split; [lia|]. rewrite E, firstn_all. apply full_holds, (SI_value _ _ _ _ H).
  Qed.

  Lemma sinv_step (W W' : nat -> nat -> Prop) pub s ts i t : sinv W pub s ts -> ts !! i = Some t ->
    (forall j u, ts !! j = Some u -> loaded (st_pc u) = true -> forall n, (n <= length (ss_log (fst (step i s t))))%nat -> W j n -> W' j n) ->
    (loaded (st_pc t) = false -> loaded (st_pc (snd (step i s t))) = true -> W' i (length (ss_log s))) ->
    exists ext, sinv W' (pub ++ ext) (fst (step i s t)) (<[i := snd (step i s t)]> ts).
  Proof.
    intros H Hi HW Hload. pose proof (SI_shape _ _ _ _ H _ _ Hi) as Hs. pose proof (log_length _ _ _ _ H) as Hll. pose proof (SI_value _ _ _ _ H) as Hv.
    (* a step that changes at most the lock and the private array *)
    assert (Hplain : forall t' s', step i s t = (s', t') -> ss_log s' = ss_log s -> ss_value s' = ss_value s -> keeps i (length pub) (ss_mem s) (ss_mem s') ->
      (forall j, j <> i -> ss_lock s = Some j -> ss_lock s' = Some j /\ forall p a, ss_mem s !! p = Some (None, a) -> ss_mem s' !! p = Some (None, a)) ->
      shape W' (ss_mem s') pub (ss_value s) (ss_lock s') (ss_log s) i t' ->
      exists ext, sinv W' (pub ++ ext) (fst (step i s t)) (<[i := snd (step i s t)]> ts)).
    { intros t' s' E Elog Eval Hk Hlock Hsh. exists []. pose proof (scall_step i s t) as Hc. rewrite E in *. cbn [fst snd] in *. eapply sinv_make; try eassumption.
      - auto.
      - intros j u Hu Hne Hl n Hn Hw. eapply HW; try eassumption. rewrite app_nil_r in Hn. rewrite Elog. lia.
      - intros j Hne Hl. destruct (Hlock j Hne Hl) as [-> Hm]. rewrite app_nil_r. auto.
      - rewrite app_nil_r, Eval. eapply full_keeps; [exact Hk|lia|exact Hv].
      - rewrite app_nil_r, Eval, Elog. exact Hsh. }
    assert (Hself : loaded (st_pc t) = true -> forall n, (n <= length pub)%nat -> ss_log (fst (step i s t)) = ss_log s -> W i n -> W' i n).
    { intros Hl n Hn El Hw. eapply HW; try eassumption. rewrite El. lia. }
    assert (Hother : forall s', ss_mem s' = ss_mem s -> ss_lock s' = ss_lock s -> forall j, j <> i -> ss_lock s = Some j -> ss_lock s' = Some j /\ forall p a, ss_mem s !! p = Some (None, a) -> ss_mem s' !! p = Some (None, a)).
    { intros s' -> -> j _ Hl. auto. }
    assert (Hmine : forall s', ss_mem s' = ss_mem s -> (ss_lock s = None \/ ss_lock s = Some i) -> forall j, j <> i -> ss_lock s = Some j -> ss_lock s' = Some j /\ forall p a, ss_mem s !! p = Some (None, a) -> ss_mem s' !! p = Some (None, a)).
    { intros s' _ [El|El] j Hne Hl; rewrite El in Hl; congruence. }
    assert (Hsnap : forall sl, loaded (st_pc t) = true -> ss_log (fst (step i s t)) = ss_log s -> snap W (ss_mem s) pub i sl -> snap W' (ss_mem s) pub i sl).
    { intros sl Hl El (H1 & H2 & H3). split; [apply Hself; assumption|]. auto. }
    assert (Hcase : (exists h, ss_lock s = Some h) \/ ss_lock s = None) by (destruct (ss_lock s); eauto).
    destruct t as [c pc]. unfold shape in Hs. cbn [st_call st_pc] in Hs, Hload, Hself, Hsnap. destruct c as [x| |f].
    - destruct pc as [|sl|sl| | | | |sl|sl|sl dst k|ret| |sl k|res]; try contradiction.
      + destruct Hcase as [[h El]|El].
        * eapply (Hplain (SThr (SAppend x) W_lock) s); [unfold s_step; cbn; rewrite El; reflexivity|reflexivity|reflexivity|apply keeps_refl|apply Hother; reflexivity|exact Hs].
        * eapply (Hplain (SThr (SAppend x) (W_write (ss_value s))) (with_lock s (Some i))); [unfold s_step; cbn; rewrite El; reflexivity|reflexivity|reflexivity|apply keeps_refl|apply Hmine; [reflexivity|auto]|].
          unfold shape. cbn. auto.
      + destruct Hs as (-> & Hl & Hn). destruct (gappend_full _ _ _ x Hv) as [Hf Hk].
        eapply Hplain; [unfold s_step; cbn [st_pc st_call]; reflexivity|reflexivity|reflexivity|apply Hk|intros j Hne Hj; congruence|]. unfold shape. cbn. auto.
      + destruct Hs as (Hf & Hl & Hn). exists [x]. unfold s_step. cbn [st_pc fst snd]. eapply sinv_make; [exact H|exact Hi|reflexivity|apply keeps_refl| | | | |].
        * right. exists x. auto.
        * intros j u Hu Hne Hld n Hlen Hw. eapply HW; try eassumption. unfold s_step. cbn [st_pc fst ss_log]. rewrite app_length in *. cbn in *. lia.
        * intros j Hne Hj. congruence.
        * exact Hf.
        * unfold shape. cbn. split; [exact Hl|]. apply elem_of_app. right. apply elem_of_list_singleton. reflexivity.
      + destruct Hs as (Hl & Hn). eapply (Hplain (SThr (SAppend x) W_done) (with_lock s None)); [reflexivity|reflexivity|reflexivity|apply keeps_refl|apply Hmine; [reflexivity|auto]|exact Hn].
      + eapply (Hplain (SThr (SAppend x) W_done) s); [reflexivity|reflexivity|reflexivity|apply keeps_refl|apply Hother; reflexivity|exact Hs].
    - destruct Hs as [Hn Hs]. destruct pc as [|sl|sl| | | | |sl|sl|sl dst k|ret| |sl k|res]; try contradiction.
      + destruct Hcase as [[h El]|El].
        * eapply (Hplain (SThr SCopy C_lock) s); [unfold s_step; cbn; rewrite El; reflexivity|reflexivity|reflexivity|apply keeps_refl|apply Hother; reflexivity|split; auto].
        * eapply (Hplain (SThr SCopy C_load) (with_lock s (Some i))); [unfold s_step; cbn; rewrite El; reflexivity|reflexivity|reflexivity|apply keeps_refl|apply Hmine; [reflexivity|auto]|]. split; [exact Hn|reflexivity].
      + eapply (Hplain (SThr SCopy (C_unlock (ss_value s))) s); [reflexivity|reflexivity|reflexivity|apply keeps_refl|apply Hother; reflexivity|]. split; [exact Hn|]. split; [exact Hs|]. eapply value_snap; [exact H|]. apply Hload; reflexivity.
      + destruct Hs as [Hl Hs]. eapply (Hplain (SThr SCopy (C_alloc sl)) (with_lock s None)); [reflexivity|reflexivity|reflexivity|apply keeps_refl|apply Hmine; [reflexivity|auto]|]. split; [exact Hn|]. apply Hsnap; auto.
      + destruct (gs_len sl) as [|n] eqn:En.
        * eapply (Hplain (SThr SCopy (C_done None)) s); [unfold s_step; cbn; rewrite En; reflexivity|reflexivity|reflexivity|apply keeps_refl|apply Hother; reflexivity|]. split; [exact Hn|]. destruct Hs as (Hw & _). rewrite En in Hw. apply Hself; auto; [lia|unfold s_step; cbn; rewrite En; reflexivity].
        * eapply (Hplain _ _); [unfold s_step; cbn [st_pc]; rewrite En; reflexivity|reflexivity|reflexivity|apply keeps_alloc|intros j Hne Hl; split; [exact Hl|intros p a Hp; apply lookup_app_l_Some, Hp]|].
          split; [exact Hn|]. assert (Hs' : snap W' (ss_mem s) pub i sl) by (apply Hsnap; auto; unfold s_step; cbn [st_pc]; rewrite En; reflexivity).
          cbn [set_pc st_pc ss_mem with_mem]. split.
          -- destruct Hs' as (H1 & H2 & H3). split; [exact H1|]. split; [exact H2|]. eapply holds_keeps; [apply (keeps_alloc i (length pub))| |exact H3]. rewrite take_length. lia.
          -- exists (repeat zero (Nat.max (S n) (grow (S n)))). split; [rewrite lookup_app_r, Nat.sub_diag by lia; reflexivity|]. rewrite repeat_length. split; [lia|reflexivity].
      + destruct Hs as [Hs (a & Ha & Hlen & Htk)]. destruct (Nat.ltb_spec k (gs_len sl)) as [Hlt|Hge].
        * assert (Est : step i s (SThr SCopy (C_copy sl dst k)) = (with_mem s (gset (ss_mem s) dst k (default zero (garray (ss_mem s) (gs_ptr sl) !! k))), SThr SCopy (C_copy sl dst (S k)))) by (unfold s_step; cbn [st_pc]; apply Nat.ltb_lt in Hlt; rewrite Hlt; reflexivity).
          pose proof (keeps_private i (length pub) _ _ _ k (default zero (garray (ss_mem s) (gs_ptr sl) !! k)) Ha) as Hk.
          eapply Hplain; [exact Est|reflexivity|reflexivity|exact Hk| |].
          -- intros j Hne Hl. split; [exact Hl|]. intros p b Hp. cbn [with_mem ss_mem]. rewrite (gset_eq _ _ _ _ _ _ Ha). rewrite list_lookup_insert_ne by (intros ->; congruence). exact Hp.
          -- split; [exact Hn|]. assert (Hs' : snap W' (ss_mem s) pub i sl) by (apply Hsnap; auto; rewrite Est; reflexivity). destruct Hs' as (H1 & H2 & H3). cbn [st_pc ss_mem with_mem]. split.
             ++ split; [exact H1|]. split; [exact H2|]. eapply holds_keeps; [exact Hk| |exact H3]. rewrite take_length. lia.
             ++ rewrite (gset_eq _ _ _ _ _ _ Ha), list_lookup_insert by (eapply lookup_lt_Some; exact Ha). eexists. split; [reflexivity|]. rewrite insert_length. split; [lia|].
                destruct H3 as (b & Hb & _ & Hbt). rewrite take_length, Nat.min_l in Hbt by exact H2.
                destruct (lookup_lt_is_Some_2 pub k) as [y Hy]; [lia|].
                assert (Hby : garray (ss_mem s) (gs_ptr sl) !! k = Some y). { unfold garray. rewrite Hb. rewrite <- (lookup_take b (gs_len sl)) by exact Hlt. rewrite Hbt, lookup_take by exact Hlt. exact Hy. }
                rewrite Hby. cbn [default id]. rewrite (take_S_r _ _ y) by (apply list_lookup_insert; lia). rewrite take_insert, Htk by lia. symmetry. apply take_S_r, Hy.
        * assert (Est : step i s (SThr SCopy (C_copy sl dst k)) = (s, SThr SCopy (C_done (Some (dst, gs_len sl))))) by (unfold s_step; cbn [st_pc]; apply Nat.ltb_ge in Hge; rewrite Hge; reflexivity).
          eapply Hplain; [exact Est|reflexivity|reflexivity|apply keeps_refl|apply Hother; reflexivity|]. split; [exact Hn|]. assert (k = gs_len sl) by lia. subst k. destruct Hs as (H1 & H2 & _). cbn [st_pc]. split; [apply Hself; auto; rewrite Est; reflexivity|]. split; [exact H2|]. exists a. auto.
      + eapply (Hplain (SThr SCopy (C_done ret)) s); [reflexivity|reflexivity|reflexivity|apply keeps_refl|apply Hother; reflexivity|]. split; [exact Hn|]. cbn [st_pc]. destruct ret as [[dst n]|]; [|apply Hself; auto; lia]. destruct Hs as (H1 & H2 & H3). split; [apply Hself; auto|auto].
    - destruct Hs as [Hn Hs]. destruct pc as [|sl|sl| | | | |sl|sl|sl dst k|ret| |sl k|res]; try contradiction.
      + eapply (Hplain (SThr (SSearch f) (S_at (ss_value s) (gs_len (ss_value s)))) s); [reflexivity|reflexivity|reflexivity|apply keeps_refl|apply Hother; reflexivity|]. split; [exact Hn|]. cbn [st_pc]. split; [eapply value_snap; [exact H|apply Hload; reflexivity]|]. split; [lia|].
        rewrite drop_ge by (rewrite take_length; lia). constructor.
      + destruct Hs as (Hs & Hk & Hf). destruct k as [|k].
        * eapply (Hplain (SThr (SSearch f) (S_done None)) s); [reflexivity|reflexivity|reflexivity|apply keeps_refl|apply Hother; reflexivity|]. split; [exact Hn|]. cbn [st_pc]. exists (gs_len sl). destruct Hs as (H1 & H2 & _). split; [apply Hself; auto|]. split; [exact H2|]. apply la_none. exact Hf.
        * destruct Hs as (H1 & H2 & H3). pose proof H3 as (b & Hb & _ & Hbt). rewrite take_length, Nat.min_l in Hbt by exact H2.
          destruct (lookup_lt_is_Some_2 pub k) as [y Hy]; [lia|].
          assert (Htk : take (gs_len sl) pub !! k = Some y) by (rewrite lookup_take by lia; exact Hy).
          assert (Hby : garray (ss_mem s) (gs_ptr sl) !! k = Some y). { unfold garray. rewrite Hb. rewrite <- (lookup_take b (gs_len sl)) by lia. rewrite Hbt. exact Htk. }
          destruct (f y) as [z|] eqn:Ef.
          -- assert (Est : step i s (SThr (SSearch f) (S_at sl (S k))) = (s, SThr (SSearch f) (S_done (Some z)))) by (unfold s_step; cbn [st_pc st_call]; rewrite Hby; cbn [default id]; rewrite Ef; reflexivity).
             eapply Hplain; [exact Est|reflexivity|reflexivity|apply keeps_refl|apply Hother; reflexivity|]. split; [exact Hn|]. cbn [st_pc]. exists (gs_len sl). split; [apply Hself; auto; rewrite Est; reflexivity|]. split; [exact H2|].
             rewrite <- (take_drop_middle _ _ _ Htk). apply last_accepted_snoc; [exact Ef|exact Hf].
          -- assert (Est : step i s (SThr (SSearch f) (S_at sl (S k))) = (s, SThr (SSearch f) (S_at sl k))) by (unfold s_step; cbn [st_pc st_call]; rewrite Hby; cbn [default id]; rewrite Ef; reflexivity).
             eapply Hplain; [exact Est|reflexivity|reflexivity|apply keeps_refl|apply Hother; reflexivity|]. split; [exact Hn|]. cbn [st_pc]. split; [split; [apply Hself; auto; rewrite Est; reflexivity|auto]|]. split; [lia|].
             rewrite (drop_S _ _ _ Htk). constructor; [exact Ef|exact Hf].
      + eapply (Hplain (SThr (SSearch f) (S_done res)) s); [reflexivity|reflexivity|reflexivity|apply keeps_refl|apply Hother; reflexivity|]. split; [exact Hn|]. cbn [st_pc]. destruct Hs as (n & H1 & H2 & H3). exists n. split; [apply Hself; auto|auto].
  Qed.

  (** ** Runs *)
  Local Notation slog sched := (ss_log (shared (run sched))).
  Definition window (sched : list (action (scall A Y))) (i n : nat) : Prop :=
    (forall pre post, sched = pre ++ post -> fresh zero grow pre i -> (length (slog pre) <= n)%nat) /\
    (forall pre post, sched = pre ++ post -> done zero grow pre i -> (n <= length (slog pre))%nat).
  Lemma snoc_prefix {B} (h : list B) a pre post : h ++ [a] = pre ++ post -> (post = [] /\ pre = h ++ [a]) \/ exists post', h = pre ++ post'.
  Proof.
    destruct post as [|b post _] using rev_ind; intros E; [left; rewrite app_nil_r in E; auto|]. rewrite app_assoc in E. apply app_inj_tail in E as [-> _]. right. eauto.
  Qed.
  Lemma step_keeps i s t : (loaded (st_pc t) = true -> loaded (st_pc (snd (step i s t))) = true) /\ (s_finished (st_pc t) = true -> step i s t = (s, t)) /\
    (s_fresh (st_pc t) = false -> s_fresh (st_pc (snd (step i s t))) = false).
  Proof.
    destruct t as [c pc]. unfold s_step. cbn [st_pc st_call]. split; [|split].
    - destruct pc as [|sl|sl| | | | |sl|sl|sl dst k|ret| |sl k|res]; try discriminate; try reflexivity; intros _.
      + destruct (gs_len sl); reflexivity.
      + destruct (_ <? _); reflexivity.
      + destruct k; [reflexivity|]. destruct c; try reflexivity. destruct (f _); reflexivity.
    - destruct pc; try discriminate; reflexivity.
    - destruct pc as [|sl|sl| | | | |sl|sl|sl dst k|ret| |sl k|res]; try discriminate; try reflexivity; intros _.
      + destruct c; reflexivity.
      + destruct (gs_len sl); reflexivity.
      + destruct (_ <? _); reflexivity.
      + destruct k; [reflexivity|]. destruct c; try reflexivity. destruct (f _); reflexivity.
  Qed.
  Lemma log_snoc sched a : exists ext, slog (sched ++ [a]) = slog sched ++ ext.
  Proof.
    unfold s_exec. rewrite exec_snoc. fold (run sched). set (c := run sched). assert (Hz : exists ext, ss_log (shared c) = ss_log (shared c) ++ ext) by (exists []; rewrite app_nil_r; reflexivity).
    destruct a as [a|i]; cbn; [exact Hz|]. destruct (threads c !! i) as [[cl pc]|]; [|exact Hz]. set (s := shared c) in *. clearbody s. unfold s_step. cbn [shared st_pc st_call].
    destruct pc as [|sl|sl| | | | |sl|sl|sl dst k|ret| |sl k|res]; try exact Hz.
    - destruct (ss_lock s); exact Hz.
    - destruct cl; exact Hz.
    - exists [i]. reflexivity.
    - destruct (ss_lock s); exact Hz.
    - destruct (gs_len sl); exact Hz.
    - destruct (_ <? _); exact Hz.
    - destruct k; [exact Hz|]. destruct cl as [x| |f]; try exact Hz. destruct (f _); exact Hz.
  Qed.
  Lemma slog_grows pre post : exists ext, slog (pre ++ post) = slog pre ++ ext.
  Proof.
    induction post as [|a post [ext IH]] using rev_ind; [exists []; rewrite !app_nil_r; reflexivity|]. rewrite app_assoc. destruct (log_snoc (pre ++ post) a) as [ext' E]. exists (ext ++ ext'). rewrite app_assoc, <- IH. exact E.
  Qed.
  Lemma slog_le pre post : (length (slog pre) <= length (slog (pre ++ post)))%nat.
  Proof. destruct (slog_grows pre post) as [ext ->]. rewrite app_length. lia. Qed.
  (** A thread later on. *)
  Lemma thread_later (P : spc Y -> bool) : (forall i s t, P (st_pc t) = true -> P (st_pc (snd (step i s t))) = true) ->
    forall pre post i t, threads (run pre) !! i = Some t -> exists t', threads (run (pre ++ post)) !! i = Some t' /\ st_call t' = st_call t /\ (P (st_pc t) = true -> P (st_pc t') = true).
  Proof.
    intros HP pre post i t Ht. induction post as [|a post (t' & E & Ec & Ep)] using rev_ind; [rewrite app_nil_r; eauto|]. rewrite app_assoc.
    assert (Hs : exists u, threads (exec1 s_start step (run (pre ++ post)) a) !! i = Some u /\ st_call u = st_call t' /\ (P (st_pc t') = true -> P (st_pc u) = true)).
    { destruct a as [a|j]; cbn; [exists t'; split; [apply lookup_app_l_Some, E|auto]|]. destruct (threads (run (pre ++ post)) !! j) as [v|] eqn:Ej; cbn; [|eauto]. destruct (decide (j = i)) as [->|Hne].
      - assert (v = t') as -> by congruence. rewrite list_lookup_insert by (eapply lookup_lt_Some; exact E). eexists. split; [reflexivity|]. split; [apply scall_step|apply HP].
      - rewrite list_lookup_insert_ne by exact Hne. eauto. }
    destruct Hs as (u & Eu & Ecu & Epu). exists u. unfold s_exec. rewrite exec_snoc. split; [exact Eu|]. split; [congruence|auto].
  Qed.
  Lemma done_later pre post i t : threads (run pre) !! i = Some t -> s_finished (st_pc t) = true -> threads (run (pre ++ post)) !! i = Some t.
  Proof.
    intros Ht Hf. induction post as [|a post IH] using rev_ind; [rewrite app_nil_r; exact Ht|]. rewrite app_assoc. unfold s_exec. rewrite exec_snoc. fold (run (pre ++ post)).
    destruct a as [a|j]; cbn; [apply lookup_app_l_Some, IH|]. destruct (threads (run (pre ++ post)) !! j) as [v|] eqn:Ej; cbn; [|exact IH]. destruct (decide (j = i)) as [->|Hne].
    - assert (v = t) as -> by (change (threads (run (pre ++ post)) !! i = Some t) in IH; congruence). rewrite (proj1 (proj2 (step_keeps i _ t)) Hf). cbn. apply list_lookup_insert. eapply lookup_lt_Some. exact Ej.
    - rewrite list_lookup_insert_ne by exact Hne. exact IH.
  Qed.
  Lemma done_keeps (pre post : list (action (scall A Y))) i : done zero grow pre i -> done zero grow (pre ++ post) i.
  Proof. intros (t & Ht & Hf). exists t. split; [apply done_later; assumption|exact Hf]. Qed.

  Lemma window_snoc h a i n t : window h i n -> threads (run (h ++ [a])) !! i = Some t -> loaded (st_pc t) = true -> (n <= length (slog (h ++ [a])))%nat -> window (h ++ [a]) i n.
  Proof.
    intros [H1 H2] Ht Hl Hn. split; intros pre post E Hx; apply snoc_prefix in E as [[-> ->]|[post' ->]]; eauto.
    specialize (Hx _ Ht). destruct (st_pc t); discriminate.
  Qed.
  Lemma window_load h a i t u : threads (run h) !! i = Some u -> s_finished (st_pc u) = false -> threads (run (h ++ [a])) !! i = Some t -> loaded (st_pc t) = true -> slog (h ++ [a]) = slog h -> window (h ++ [a]) i (length (slog h)).
  Proof.
    intros Hu Hnf Ht Hl El. split; intros pre post E Hx; apply snoc_prefix in E as [[-> ->]|[post' ->]].
    - specialize (Hx _ Ht). destruct (st_pc t); discriminate.
    - apply slog_le.
    - rewrite El. lia.
    - destruct (done_keeps pre post' i Hx) as (v & Hv & Hf). congruence.
  Qed.

  Lemma sinv_exec sched : exists pub, sinv (window sched) pub (shared (run sched)) (threads (run sched)).
  Proof.
    induction sched as [|a sched [pub IH]] using rev_ind.
    - exists []. constructor; cbn; [apply NoDup_nil_2|constructor|exists []; auto|intros i t H; discriminate H].
    - destruct a as [a|i].
      + exists pub.
        assert (Es : shared (run (sched ++ [Spawn a])) = shared (run sched)) by (unfold s_exec; rewrite exec_spawn; reflexivity).
        assert (Et : threads (run (sched ++ [Spawn a])) = threads (run sched) ++ [s_start a]) by (unfold s_exec; rewrite exec_spawn; reflexivity).
        assert (Hin : forall j, j ∈ slog sched -> (j < length (threads (run sched)))%nat).
        { intros j Hj. pose proof (SI_log _ _ _ _ IH) as Hl. apply elem_of_list_lookup in Hj as [k Hk]. destruct (Forall2_lookup_l _ _ _ _ _ Hl Hk) as (x & _ & t & Ht & _). eapply lookup_lt_Some. exact Ht. }
        constructor.
        * rewrite Es. apply (SI_nodup _ _ _ _ IH).
        * rewrite Es, Et. eapply Forall2_impl; [apply (SI_log _ _ _ _ IH)|]. intros j x (t & Ht & Ec). exists t. split; [apply lookup_app_l_Some, Ht|exact Ec].
        * rewrite Es. apply (SI_value _ _ _ _ IH).
        * rewrite Es. intros j t Ht. rewrite Et in Ht. apply lookup_app_Some in Ht as [Ht|[Hge Ht]].
          -- eapply (shape_other (window sched) _ _ _ pub pub _ _ _ _ _ _ (length (threads (run sched))) j); [apply lookup_lt_Some in Ht; lia|apply keeps_refl|exists []; rewrite app_nil_r; reflexivity| | | |apply (SI_shape _ _ _ _ IH), Ht].
             ++ tauto.
             ++ intros Hl n Hn Hw. eapply window_snoc; [exact Hw| |exact Hl|]; [rewrite Et; apply lookup_app_l_Some, Ht|]. rewrite Es, (log_length _ _ _ _ IH). exact Hn.
             ++ auto.
          -- assert (j = length (threads (run sched))) as -> by (apply lookup_lt_Some in Ht; cbn in Ht; lia). rewrite Nat.sub_diag in Ht. injection Ht as <-.
             assert (Hn : length (threads (run sched)) ∉ slog sched) by (intros Hx; specialize (Hin _ Hx); lia). destruct a; unfold shape; cbn; auto.
      + destruct (threads (run sched) !! i) as [t|] eqn:Ei.
        * assert (Es : shared (run (sched ++ [Run i])) = fst (step i (shared (run sched)) t)) by (unfold s_exec; erewrite exec_run by exact Ei; reflexivity).
          assert (Et : threads (run (sched ++ [Run i])) = <[i := snd (step i (shared (run sched)) t)]> (threads (run sched))) by (unfold s_exec; erewrite exec_run by exact Ei; reflexivity).
          assert (Hii : threads (run (sched ++ [Run i])) !! i = Some (snd (step i (shared (run sched)) t))) by (rewrite Et; apply list_lookup_insert; eapply lookup_lt_Some; exact Ei).
          destruct (sinv_step (window sched) (window (sched ++ [Run i])) pub _ _ _ _ IH Ei) as [ext H].
          -- intros j u Hu Hl n Hn Hw. destruct (decide (i = j)) as [<-|Hne].
             ++ assert (u = t) as -> by congruence. eapply window_snoc; [exact Hw|exact Hii|apply step_keeps, Hl|rewrite Es; exact Hn].
             ++ eapply window_snoc; [exact Hw|rewrite Et, list_lookup_insert_ne by exact Hne; exact Hu|exact Hl|rewrite Es; exact Hn].
          -- intros Hl Hl'. eapply window_load; [exact Ei| |exact Hii|exact Hl'|].
             ++ destruct (s_finished (st_pc t)) eqn:Ef; [|reflexivity]. rewrite (proj1 (proj2 (step_keeps i _ t)) Ef) in Hl'. cbn in Hl'. congruence.
             ++ rewrite Es. clear - Hl Hl'. destruct t as [c pc]. unfold s_step in *. cbn [st_pc st_call] in *. destruct pc as [|sl|sl| | | | |sl|sl|sl dst k|ret| |sl k|res]; try discriminate; try reflexivity.
                ** destruct (ss_lock _); discriminate.
                ** destruct c; discriminate.
                ** destruct (ss_lock _); discriminate.
          -- exists (pub ++ ext). rewrite Es, Et. exact H.
        * exists pub. assert (Er : run (sched ++ [Run i]) = run sched) by (unfold s_exec; apply exec_run_none, Ei).
          pose proof (log_length _ _ _ _ IH) as Hll. rewrite Er. constructor; try apply IH. intros j t Ht.
          eapply (shape_other (window sched) _ _ _ pub pub _ _ _ _ _ _ i j); [congruence|apply keeps_refl|exists []; rewrite app_nil_r; reflexivity| | | |apply (SI_shape _ _ _ _ IH), Ht].
          -- tauto.
          -- intros Hl n Hn Hw. eapply window_snoc; [exact Hw|rewrite Er; exact Ht|exact Hl|]. rewrite Er. lia.
          -- auto.
  Qed.

  Lemma in_log_append sched i : i ∈ slog sched -> exists x, isapp (threads (run sched)) i x.
  Proof.
    destruct (sinv_exec sched) as [pub H]. intros Hi. apply elem_of_list_lookup in Hi as [k Hk]. destruct (Forall2_lookup_l _ _ _ _ _ (SI_log _ _ _ _ H) Hk) as (x & _ & Hx). eauto.
  Qed.
  Lemma fresh_not_in sched i : fresh zero grow sched i -> i ∉ slog sched.
  Proof.
    destruct (sinv_exec sched) as [pub H]. intros Hf Hi. destruct (in_log_append _ _ Hi) as (x & t & Ht & Ec). specialize (Hf _ Ht). pose proof (SI_shape _ _ _ _ H _ _ Ht) as Hs. unfold shape in Hs. rewrite Ec in Hs. destruct (st_pc t); try discriminate; auto.
  Qed.
  Lemma done_in sched i x : appends zero grow sched i x -> done zero grow sched i -> i ∈ slog sched.
  Proof.
    destruct (sinv_exec sched) as [pub H]. intros (t & Ht & Ec) (t' & Ht' & Hf). assert (t' = t) as -> by congruence. pose proof (SI_shape _ _ _ _ H _ _ Ht) as Hs. unfold shape in Hs. rewrite Ec in Hs. destruct (st_pc t); try discriminate; try contradiction; auto.
  Qed.
  Lemma later_call pre post i x : appends zero grow (pre ++ post) i x -> forall t, threads (run pre) !! i = Some t -> st_call t = SAppend x.
  Proof.
    intros (t' & Ht' & Ec) t Ht. destruct (thread_later (fun _ => true) (fun _ _ _ _ => eq_refl) pre post i t Ht) as (u & Hu & Ecu & _). congruence.
  Qed.
  Lemma slog_prefix pre post n : (n <= length (slog pre))%nat -> take n (slog (pre ++ post)) = take n (slog pre).
  Proof. intros Hn. destruct (slog_grows pre post) as [ext ->]. apply take_app_le. exact Hn. Qed.

  Lemma window_sees sched i n : window sched i n -> may_see zero grow sched (slog sched) i n.
  Proof.
    intros [H1 H2]. split.
    - intros pre post j x -> Ha Hd Hf. pose proof (done_in _ _ _ Ha Hd) as Hj. specialize (H1 pre post eq_refl Hf). apply elem_of_list_lookup in Hj as [k Hk]. pose proof (lookup_lt_Some _ _ _ Hk).
      apply elem_of_list_lookup. exists k. rewrite lookup_take by lia. destruct (slog_grows pre post) as [ext ->]. apply lookup_app_l_Some, Hk.
    - intros pre post j -> Hd Hf Hj. specialize (H2 pre post eq_refl Hd). rewrite slog_prefix in Hj by exact H2. apply (fresh_not_in _ _ Hf). eapply elem_of_take in Hj as (k & Hk & _). eapply elem_of_list_lookup_2. exact Hk.
  Qed.
  Lemma order_ok sched pub : sinv (window sched) pub (shared (run sched)) (threads (run sched)) -> append_order zero grow sched (slog sched) pub.
  Proof.
    intros H. split; [apply (SI_nodup _ _ _ _ H)|]. split; [exact (SI_log _ _ _ _ H)|]. split; [intros i x; apply done_in|]. split; [intros i Hi Hf; exact (fresh_not_in _ _ Hf Hi)|].
    intros i j a b pre post Ha Hb -> Hd Hf. destruct (slog_grows pre post) as [ext Hext].
    assert (Hi : i ∈ slog pre).
    { pose proof (elem_of_list_lookup_2 _ _ _ Ha) as Hi. destruct (in_log_append _ _ Hi) as (x & Hx). pose proof Hd as (t & Ht & _). apply (done_in _ _ x); [|exact Hd]. exists t. split; [exact Ht|]. eapply later_call; [exact Hx|exact Ht]. }
    apply elem_of_list_lookup in Hi as [k Hk]. assert (a = k) as ->.
    { eapply NoDup_lookup; [apply (SI_nodup _ _ _ _ H)|exact Ha|]. rewrite Hext. apply lookup_app_l_Some, Hk. }
    apply lookup_lt_Some in Hk. rewrite Hext in Hb. apply lookup_app_Some in Hb as [Hb|[Hb _]]; [|lia]. destruct (fresh_not_in _ _ Hf). eapply elem_of_list_lookup_2. exact Hb.
  Qed.
  Lemma readers sched : exists order xs, append_order zero grow sched order xs /\
    (forall i ret, copied zero grow sched i ret -> exists n, (n <= length xs)%nat /\ may_see zero grow sched order i n /\ holds_now (Y := Y) zero grow sched ret (take n xs)) /\
    (forall i f res, searched zero grow sched i f res -> exists n, (n <= length xs)%nat /\ may_see zero grow sched order i n /\ last_accepted f (take n xs) res).
  Proof.
    destruct (sinv_exec sched) as [pub H]. exists (slog sched), pub. split; [apply order_ok, H|]. split.
    - intros i ret Hi. pose proof (SI_shape _ _ _ _ H _ _ Hi) as [_ Hs]. cbn [st_pc] in Hs. destruct ret as [[dst n]|].
      + destruct Hs as (Hw & Hn & a & Ha & Htk). exists n. split; [exact Hn|]. split; [apply window_sees, Hw|]. unfold holds_now, ret_contents, gcontents, garray. rewrite Ha. exact Htk.
      + exists 0%nat. split; [lia|]. split; [apply window_sees, Hs|reflexivity].
    - intros i f res Hi. pose proof (SI_shape _ _ _ _ H _ _ Hi) as [_ (n & Hw & Hn & Hl)]. exists n. split; [exact Hn|]. split; [apply window_sees, Hw|exact Hl].
  Qed.
  Lemma isapp_fun (ts : list (sthread A Y)) log xs ys : Forall2 (isapp ts) log xs -> Forall2 (isapp ts) log ys -> xs = ys.
  Proof.
    intros H. revert ys. induction H as [|i x log xs Hx _ IH]; intros ys Hy; inversion Hy as [|? y ? ys' Hy1 Hy2]; subst; [reflexivity|]. f_equal; [|apply IH, Hy2].
    destruct Hx as (t & Ht & Ec), Hy1 as (t' & Ht' & Ec'). congruence.
  Qed.
  Lemma stable pre post i ret xs : copied zero grow pre i ret -> holds_now (Y := Y) zero grow pre ret xs -> copied zero grow (pre ++ post) i ret /\ holds_now (Y := Y) zero grow (pre ++ post) ret xs.
  Proof.
    intros Hi <-. assert (Hi' : copied zero grow (pre ++ post) i ret) by (apply done_later; [exact Hi|reflexivity]). split; [exact Hi'|].
    destruct (sinv_exec pre) as [pub H]. destruct (sinv_exec (pre ++ post)) as [pub' H'].
    pose proof (SI_shape _ _ _ _ H _ _ Hi) as [_ Hs]. pose proof (SI_shape _ _ _ _ H' _ _ Hi') as [_ Hs']. cbn [st_pc] in Hs, Hs'. destruct ret as [[dst n]|]; [|reflexivity].
    destruct Hs as (_ & Hn & a & Ha & Htk), Hs' as (_ & Hn' & a' & Ha' & Htk'). unfold holds_now, ret_contents, gcontents, garray. rewrite Ha, Ha', Htk, Htk'.
    destruct (slog_grows pre post) as [ext Hext]. pose proof (SI_log _ _ _ _ H') as Hl. rewrite Hext in Hl. apply Forall2_app_inv_l in Hl as (p1 & p2 & Hp1 & _ & ->).
    assert (pub = p1) as <-; [|apply take_app_le, Hn]. eapply isapp_fun; [|exact Hp1]. eapply Forall2_impl; [apply (SI_log _ _ _ _ H)|].
    intros j x (t & Ht & Ec). destruct (thread_later (fun _ => true) (fun _ _ _ _ => eq_refl) pre post j t Ht) as (u & Hu & Ecu & _). exists u. split; [exact Hu|congruence].
  Qed.
End slices.

(** ** Maps *)
Section maps.
  Context {K V : Type} `{Countable K}.
  Lemma m_run_app (h : maps K V) os os' : m_run h (os ++ os') = (let '(h1, r1) := m_run h os in let '(h2, r2) := m_run h1 os' in (h2, r1 ++ r2)).
  Proof.
    revert h. induction os as [|o os IH]; intros h; cbn.
    - destruct (m_run h os'). reflexivity.
    - destruct (m_step h o) as [h1 r]. rewrite IH. destruct (m_run h1 os) as [h2 rs]. destruct (m_run h2 os') as [h3 rs']. reflexivity.
  Qed.
  Lemma m_run_snoc (h : maps K V) os o : fst (m_run h (os ++ [o])) = fst (m_step (fst (m_run h os)) o) /\ snd (m_run h (os ++ [o])) = snd (m_run h os) ++ [snd (m_step (fst (m_run h os)) o)].
  Proof. rewrite m_run_app. destruct (m_run h os) as [h1 r1]. cbn. destruct (m_step h1 o). auto. Qed.
  Lemma m_len (os : list (mop K V)) : (0 < length (fst (m_run m_new os)))%nat.
  Proof.
    induction os as [|o os IH] using rev_ind; [cbn; lia|]. rewrite (proj1 (m_run_snoc _ _ _)). set (h := fst (m_run m_new os)) in *. clearbody h. destruct o as [k f|k| |n k v]; cbn [m_step fst].
    - rewrite insert_length. exact IH.
    - exact IH.
    - rewrite app_length. lia.
    - destruct n as [|n]; [exact IH|]. destruct (h !! S n); cbn [fst]; rewrite ?insert_length; exact IH.
  Qed.
  Lemma m_own_updated (os : list (mop K V)) k : m_own (fst (m_run m_new os)) !! k = updated os k.
  Proof.
    induction os as [|o os IH] using rev_ind; [exact (lookup_empty k)|]. unfold updated. rewrite fold_left_app. fold (updated os k). rewrite (proj1 (m_run_snoc _ _ _)). pose proof (m_len os) as Hl. set (h := fst (m_run m_new os)) in *. clearbody h. cbn [fold_left].
    destruct o as [k' f|k'| |n k' v]; cbn [m_step fst].
    - unfold m_own at 1. rewrite list_lookup_insert by exact Hl. cbn. destruct (decide (k' = k)) as [->|Hne]; [rewrite lookup_insert, IH; reflexivity|rewrite lookup_insert_ne by exact Hne; exact IH].
    - exact IH.
    - unfold m_own. rewrite lookup_app_l by exact Hl. exact IH.
    - destruct n as [|n]; [exact IH|]. destruct (h !! S n); [|exact IH]. unfold m_own. cbn [fst]. rewrite list_lookup_insert_ne by discriminate. exact IH.
  Qed.
  Lemma get_latest (os : list (mop K V)) k : snd (m_step (fst (m_run m_new os)) (MGet k)) = MVal (updated os k).
  Proof. cbn. rewrite m_own_updated. reflexivity. Qed.
  Lemma getall_stable (os os' : list (mop K V)) n : snd (m_step (fst (m_run m_new os)) MGetAll) = MRef n ->
    Forall (fun o => caller_of n o = false) os' ->
    exists m, fst (m_run m_new (os ++ [MGetAll] ++ os')) !! n = Some m /\ forall k, m !! k = updated os k.
  Proof.
    intros E Hf. injection E as <-. exists (m_own (fst (m_run m_new os))). split; [|intros k; apply m_own_updated]. rewrite app_assoc.
    pose proof (m_len os) as Hl. set (n := length (fst (m_run m_new os))) in *.
    induction os' as [|o os' IH] using rev_ind.
    - rewrite app_nil_r, (proj1 (m_run_snoc _ _ _)). cbn. rewrite lookup_app_r, Nat.sub_diag by (unfold n; lia). reflexivity.
    - apply Forall_app in Hf as [Hf Ho]. specialize (IH Hf). rewrite app_assoc, (proj1 (m_run_snoc _ _ _)). set (h := fst (m_run m_new ((os ++ [MGetAll]) ++ os'))) in *. clearbody h. apply Forall_cons in Ho as [Ho _].
      destruct o as [k' f|k'| |j k' v]; cbn [m_step fst].
      + rewrite list_lookup_insert_ne by lia. exact IH.
      + exact IH.
      + apply lookup_app_l_Some, IH.
      + destruct j as [|j]; [exact IH|]. destruct (h !! S j); [|exact IH]. cbn [fst]. rewrite list_lookup_insert_ne; [exact IH|]. cbn [caller_of] in Ho. apply Nat.eqb_neq in Ho. congruence.
  Qed.
End maps.
