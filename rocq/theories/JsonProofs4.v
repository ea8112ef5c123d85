(** Proofs for C79: a text cut short is not JSON. *)
From Verif Require Import Base BaseProofs PresentModel PresentSpec LayoutModel SvgModel SvgSpec SvgProofs SvgNumProofs ArgsModel ArgsSpec ArgsProofs JsonModel JsonSpec JsonProofs JsonProofs2 JsonProofs3.
Local Open Scope Z_scope.
Local Arguments B : simpl never.

Lemma add_some x r v rest : add_chars x r = Some (v, rest) -> exists v', r = Some (v', rest) /\ v = x ++ v'.
Proof. destruct r as [[v' r']|]; cbn; [|discriminate]. intros H. apply Some_inj, pair_equal_spec in H as [<- <-]. eauto. Qed.
Lemma read_string_ext q : forall n s v r, (length s <= n)%nat -> read_string s = Some (v, r) -> read_string (s ++ q) = Some (v, r ++ q).
Proof.
  induction n as [|n IH]; intros s v r Hl H.
  { destruct s; [discriminate|cbn in Hl; lia]. }
  assert (Step : forall x s' v, (length s' <= n)%nat -> add_chars x (read_string s') = Some (v, r) -> add_chars x (read_string (s' ++ q)) = Some (v, r ++ q)).
  { intros x s' w L A. apply add_some in A as (v' & A & ->). rewrite (IH _ _ _ L A). reflexivity. }
  destruct s as [|c s]; [discriminate|]. cbn [app read_string] in *. cbn [length] in Hl.
  destruct (byte c =? 34). { apply Some_inj, pair_equal_spec in H as [<- <-]. reflexivity. }
  destruct (byte c <? 32); [discriminate|]. destruct (byte c =? 92); [|apply Step; [lia|exact H]].
  destruct s as [|e s]; [discriminate|]. cbn [app length] in *. destruct (json_escape e) as [z|]; [apply Step; [lia|exact H]|].
  destruct (byte e =? 117); [|discriminate]. destruct s as [|a [|b' [|c' [|d s]]]]; try discriminate. cbn [app length] in *.
  destruct (rune_bytes [a; b'; c'; d]); [apply Step; [lia|exact H]|].
  destruct s as [|x [|y [|a' [|b'' [|c'' [|d' s]]]]]]; try discriminate. cbn [app length] in *.
  destruct (_ && _); [|discriminate]. destruct (surrogates _ _); [apply Step; [lia|exact H]|discriminate].
Qed.
Lemma skip_ext q s c r : skip_space s = c :: r -> skip_space (s ++ q) = c :: r ++ q.
Proof.
  induction s as [|d s IH]; [discriminate|]. cbn [app skip_space]. destruct (json_space d); [exact IH|]. intros H. injection H as -> ->. reflexivity.
Qed.
Lemma strip_ext p q : forall s r, strip p s = Some r -> strip p (s ++ q) = Some (r ++ q).
Proof.
  induction p as [|c p IH]; intros s r; cbn [strip]; [intros H; apply Some_inj in H as <-; reflexivity|]. destruct s as [|d s]; [discriminate|]. cbn [app]. destruct (Ascii.eqb c d); [apply IH|discriminate].
Qed.
Lemma span_ext p q s : forall x c y, span_of p s = (x, c :: y) -> span_of p (s ++ q) = (x, c :: y ++ q).
Proof.
  induction s as [|d s IH]; intros x c y; cbn [app span_of]; [intros H; discriminate|]. destruct (p d).
  - destruct (span_of p s) as [x' y'] eqn:E. intros H. apply pair_equal_spec in H as [<- ->]. rewrite (IH _ _ _ eq_refl). reflexivity.
  - intros H. apply pair_equal_spec in H as [<- H]. injection H as -> ->. reflexivity.
Qed.
Lemma items_ext {A} (read read' : bytes -> option (A * bytes)) close q :
  (forall s a r, read s = Some (a, r) -> r <> [] -> read' (s ++ q) = Some (a, r ++ q)) ->
  forall n n' s l r, (n <= n')%nat -> read_items read close n s = Some (l, r) -> read_items read' close n' (s ++ q) = Some (l, r ++ q).
Proof.
  intros R. induction n as [|n IH]; intros n' s l r Hn H; [discriminate|]. destruct n' as [|n']; [lia|]. cbn [read_items] in *.
  destruct (read s) as [[a rest]|] eqn:E; [|discriminate]. destruct (skip_space rest) as [|c rest'] eqn:Es; [discriminate|].
  rewrite (R _ _ _ E) by (intros ->; discriminate). rewrite (skip_ext _ _ _ _ Es). destruct (byte c =? 44).
  - destruct (read_items read close n rest') as [[l' r']|] eqn:Er; [|discriminate]. rewrite (IH n' _ _ _ ltac:(lia) Er). apply Some_inj, pair_equal_spec in H as [<- <-]. reflexivity.
  - destruct (byte c =? close); [|discriminate]. apply Some_inj, pair_equal_spec in H as [<- <-]. reflexivity.
Qed.
Lemma list_ext {A} (read read' : bytes -> option (A * bytes)) close q :
  (forall s a r, read s = Some (a, r) -> r <> [] -> read' (s ++ q) = Some (a, r ++ q)) ->
  forall s l r, read_list_of read close s = Some (l, r) -> read_list_of read' close (s ++ q) = Some (l, r ++ q).
Proof.
  intros R s l r H. unfold read_list_of in *. destruct (skip_space s) as [|c s'] eqn:Es; [discriminate|]. rewrite (skip_ext _ _ _ _ Es). destruct (byte c =? close).
  - apply Some_inj, pair_equal_spec in H as [<- <-]. reflexivity.
  - apply (items_ext read read' close q R (length s)); [rewrite app_length; lia|exact H].
Qed.
Lemma member_ext read read' q :
  (forall s a r, read s = Some (a, r) -> r <> [] -> read' (s ++ q) = Some (a, r ++ q)) ->
  forall s (m : bytes * json) r, read_member read s = Some (m, r) -> r <> [] -> read_member read' (s ++ q) = Some (m, r ++ q).
Proof.
  intros R s m r H N. unfold read_member in *. destruct (skip_space s) as [|c s1] eqn:Es; [discriminate|]. rewrite (skip_ext _ _ _ _ Es). destruct (byte c =? 34); [|discriminate].
  destruct (read_string s1) as [[k s2]|] eqn:E1; [|discriminate]. rewrite (read_string_ext q _ _ _ _ (le_n _) E1). destruct (skip_space s2) as [|d s3] eqn:E2; [discriminate|].
  rewrite (skip_ext _ _ _ _ E2). destruct (byte d =? 58); [|discriminate]. destruct (read s3) as [[v rest]|] eqn:E3; [|discriminate]. apply Some_inj, pair_equal_spec in H as [<- <-].
  rewrite (R _ _ _ E3 N). reflexivity.
Qed.
Lemma value_ext q : forall n s v r, read_value n s = Some (v, r) -> r <> [] \/ (forall t, v <> JNumber t) -> forall n', (n <= n')%nat -> read_value n' (s ++ q) = Some (v, r ++ q).
Proof.
  induction n as [|n IH]; intros s v r H N n' Hn; [discriminate|]. destruct n' as [|n']; [lia|].
  assert (R : forall s a r, read_value n s = Some (a, r) -> r <> [] -> read_value n' (s ++ q) = Some (a, r ++ q)) by (intros; apply IH; [assumption|auto|lia]).
  cbn [read_value] in *. destruct (skip_space s) as [|c s1] eqn:Es; [discriminate|]. rewrite (skip_ext _ _ _ _ Es).
  destruct (byte c =? 34).
  { destruct (read_string s1) as [[k s2]|] eqn:E1; [|discriminate]. rewrite (read_string_ext q _ _ _ _ (le_n _) E1). apply Some_inj, pair_equal_spec in H as [<- <-]. reflexivity. }
  destruct (byte c =? 91).
  { destruct (read_list_of (read_value n) 93 s1) as [[l s2]|] eqn:E1; [|discriminate]. rewrite (list_ext _ _ _ q R _ _ _ E1). apply Some_inj, pair_equal_spec in H as [<- <-]. reflexivity. }
  destruct (byte c =? 123).
  { destruct (read_list_of (read_member (read_value n)) 125 s1) as [[l s2]|] eqn:E1; [|discriminate]. rewrite (list_ext _ _ _ q (member_ext _ _ q R) _ _ _ E1). apply Some_inj, pair_equal_spec in H as [<- <-]. reflexivity. }
  cbv zeta in *. rewrite app_comm_cons.
  destruct (strip (B "null") (c :: s1)) as [r1|] eqn:E1.
  { rewrite (strip_ext _ q _ _ E1). apply Some_inj, pair_equal_spec in H as [<- <-]. reflexivity. }
  destruct (strip (B "true") (c :: s1)) as [r2|] eqn:E2.
  { assert (X : strip (B "null") ((c :: s1) ++ q) = None).
    { change (B "true") with ("t"%char :: B "rue") in E2. change (B "null") with ("n"%char :: B "ull"). cbn [strip app] in *. destruct (Ascii.eqb_spec "t" c) as [<-|]; [reflexivity|discriminate]. }
    rewrite X, (strip_ext _ q _ _ E2). apply Some_inj, pair_equal_spec in H as [<- <-]. reflexivity. }
  destruct (strip (B "false") (c :: s1)) as [r3|] eqn:E3.
  { assert (X : strip (B "null") ((c :: s1) ++ q) = None /\ strip (B "true") ((c :: s1) ++ q) = None).
    { change (B "false") with ("f"%char :: B "alse") in E3. change (B "null") with ("n"%char :: B "ull"). change (B "true") with ("t"%char :: B "rue"). cbn [strip app] in *. destruct (Ascii.eqb_spec "f" c) as [<-|]; [auto|discriminate]. }
    rewrite (proj1 X), (proj2 X), (strip_ext _ q _ _ E3). apply Some_inj, pair_equal_spec in H as [<- <-]. reflexivity. }
  destruct (span_of number_char (c :: s1)) as [t rest] eqn:E4. destruct (number_text t) eqn:Et; [|discriminate]. apply Some_inj, pair_equal_spec in H as [<- <-].
  destruct N as [N|N]; [|exfalso; apply (N t); reflexivity]. destruct rest as [|d rest]; [contradiction|]. rewrite (span_ext _ q _ _ _ _ E4).
  destruct (number_text_chars t Et) as (_ & c' & x & -> & Hc). destruct (span_of_split _ _ _ _ E4) as [E5 _]. cbn [app] in E5. assert (c' = c) as -> by congruence.
  assert (R' : byte c = 45 \/ 48 <= byte c <= 57).
  { destruct Hc as [Hc|Hc]; [|auto]. right. unfold is_digit in Hc. apply andb_prop in Hc as [A C]. apply Z.leb_le in A, C. lia. }
  assert (St : forall p q', byte p <> byte c -> strip (p :: q') ((c :: s1) ++ q) = None).
  { intros p q' Hp. cbn. destruct (Ascii.eqb_spec p c) as [->|]; [contradiction|reflexivity]. }
  change (B "null") with ("n"%char :: B "ull"). change (B "true") with ("t"%char :: B "rue"). change (B "false") with ("f"%char :: B "alse").
  rewrite (St "n"%char) by (change (byte "n") with 110; lia). rewrite (St "t"%char) by (change (byte "t") with 116; lia). rewrite (St "f"%char) by (change (byte "f") with 102; lia).
  rewrite Et. reflexivity.
Qed.
(** An array or object cannot be a part of a longer text. *)
Lemma truncated p q v : read_json (p ++ q) = Some v -> (forall t, v <> JNumber t) -> read_json p <> None -> read_json p = Some v /\ forallb json_space q = true.
Proof.
  intros H N P. unfold read_json in *. destruct (read_value (length p) p) as [[w r]|] eqn:E; [|contradiction]. destruct (skip_space r) as [|c r'] eqn:Er; [|contradiction].
  destruct (read_value (length (p ++ q)) (p ++ q)) as [[w' r']|] eqn:E'; [|discriminate]. destruct (skip_space r') as [|c' r''] eqn:Er'; [|discriminate]. apply Some_inj in H as ->.
  assert (Sp : forall s, skip_space s = [] -> forallb json_space s = true).
  { clear. induction s as [|c s IH]; [reflexivity|]. cbn. destruct (json_space c); [exact IH|discriminate]. }
  assert (Hl : (length p <= length (p ++ q))%nat) by (rewrite app_length; lia).
  assert (K : forall t, w <> JNumber t).
  { intros t ->. destruct (length p) as [|n] eqn:Ep; [discriminate|]. destruct (length (p ++ q)) as [|n'] eqn:Epq; [lia|]. cbn [read_value] in E, E'.
    destruct (skip_space p) as [|c s1] eqn:Es; [discriminate|]. rewrite (skip_ext q _ _ _ Es) in E'.
    destruct (byte c =? 34). { destruct (read_string s1) as [[? ?]|]; discriminate. }
    destruct (byte c =? 91). { destruct (read_list_of _ 93 s1) as [[? ?]|]; discriminate. }
    destruct (byte c =? 123). { destruct (read_list_of _ 125 s1) as [[? ?]|]; discriminate. }
    cbv zeta in *. destruct (strip (B "null") (c :: s1)); [discriminate|]. destruct (strip (B "true") (c :: s1)); [discriminate|]. destruct (strip (B "false") (c :: s1)); [discriminate|].
    destruct (span_of number_char (c :: s1)) as [t' rest] eqn:E4. destruct (number_text t') eqn:Et; [|discriminate].
    destruct (number_text_chars t' Et) as (_ & c' & x & -> & Hc). destruct (span_of_split _ _ _ _ E4) as [E5 _]. cbn [app] in E5. assert (c' = c) as -> by congruence.
    assert (R' : byte c = 45 \/ 48 <= byte c <= 57).
    { destruct Hc as [Hc|Hc]; [|auto]. right. unfold is_digit in Hc. apply andb_prop in Hc as [A C]. apply Z.leb_le in A, C. lia. }
    assert (St : forall p q', byte p <> byte c -> strip (p :: q') (c :: s1 ++ q) = None).
    { intros p0 q' Hp. cbn. destruct (Ascii.eqb_spec p0 c) as [->|]; [contradiction|reflexivity]. }
    change (B "null") with ("n"%char :: B "ull") in E'. change (B "true") with ("t"%char :: B "rue") in E'. change (B "false") with ("f"%char :: B "alse") in E'.
    rewrite (St "n"%char) in E' by (change (byte "n") with 110; lia). rewrite (St "t"%char) in E' by (change (byte "t") with 116; lia). rewrite (St "f"%char) in E' by (change (byte "f") with 102; lia).
    destruct (span_of number_char (c :: s1 ++ q)) as [t2 rest2]. destruct (number_text t2); [|discriminate]. apply Some_inj, pair_equal_spec in E' as [<- _]. exact (N t2 eq_refl). }
  pose proof (value_ext q _ _ _ _ E (or_intror K) _ Hl) as X. rewrite E' in X. apply Some_inj, pair_equal_spec in X as [-> ->]. split; [reflexivity|].
  apply Sp in Er'. rewrite forallb_app in Er'. apply andb_prop in Er' as [_ Er']. exact Er'.
Qed.
Lemma document_truncated b k vs p q : Forall proper vs -> repeat newline k ++ json_text (map (json_enc b) vs) = p ++ q -> read_json p <> None -> q = [] \/ q = [newline].
Proof.
  intros H E P. destruct (document_read b k vs (proper_all vs H)) as [R _]. rewrite E in R. destruct (truncated p q _ R ltac:(discriminate) P) as [_ S].
  destruct q as [|c q] using rev_ind; [auto|]. clear IHq. destruct q as [|d q] using rev_ind; [|clear IHq].
  - cbn [app] in *. right. unfold json_text in E. rewrite !app_assoc in E. apply app_inj_tail in E as [_ <-]. reflexivity.
  - exfalso. unfold json_text in E. rewrite !app_assoc in E. apply app_inj_tail in E as [E _]. change (B "]") with ["]"%char] in E. apply app_inj_tail in E as [_ <-].
    rewrite !forallb_app in S. cbn in S. rewrite andb_false_r in S. discriminate.
Qed.
