(** UTF-8, xml.EscapeText and numbers in the SVG text. *)
From Verif Require Import Base BaseProofs PresentModel LayoutModel SvgModel SvgSpec.
Local Open Scope Z_scope.
Local Arguments B : simpl never.

(** ** Bytes *)
Definition bz (n : Z) : ascii := ascii_of_N (Z.to_N n).
Lemma byte_bz n : 0 <= n < 256 -> byte (bz n) = n.
Proof. intros H. unfold byte, bz. rewrite N_ascii_embedding by lia. lia. Qed.
Lemma bz_byte c : bz (byte c) = c.
Proof. unfold byte, bz. rewrite N2Z.id. apply ascii_N_embedding. Qed.
Lemma byte_range c : 0 <= byte c < 256.
Proof. unfold byte. pose proof (N_ascii_bounded c). lia. Qed.
Lemma byte_inj c d : byte c = byte d -> c = d.
Proof. intros H. rewrite <- (bz_byte c), <- (bz_byte d), H. reflexivity. Qed.

Definition scalar (r : Z) : Prop := 0 <= r < 55296 \/ 57344 <= r < 1114112.
Lemma xml_code_scalar r : xml_code r -> scalar r.
Proof. unfold xml_code, scalar. lia. Qed.

Ltac zb :=
  repeat match goal with
         | H : (_ && _)%bool = true |- _ => apply andb_prop in H as [? ?]
         | H : (_ <=? _) = true |- _ => apply Z.leb_le in H
         | H : (_ <? _) = true |- _ => apply Z.ltb_lt in H
         | H : (_ <? _) = false |- _ => apply Z.ltb_ge in H
         | H : (_ <=? _) = false |- _ => apply Z.leb_gt in H
         | H : (_ =? _) = true |- _ => apply Z.eqb_eq in H
         | H : (_ =? _) = false |- _ => apply Z.eqb_neq in H
         end.
Ltac dm x k := let q := fresh "q" in let r := fresh "r" in
  pose proof (Z.div_mod x k ltac:(lia)); pose proof (Z.mod_pos_bound x k ltac:(lia));
  set (q := x / k) in *; set (r := x mod k) in *; clearbody q r.
Lemma between_ok lo hi n : 0 <= lo -> hi < 256 -> lo <= n <= hi -> between lo hi (bz n) = true.
Proof. intros. unfold between. rewrite byte_bz by lia. apply andb_true_intro. split; apply Z.leb_le; lia. Qed.
Lemma between_no lo hi n : 0 <= n < 256 -> n < lo \/ hi < n -> between lo hi (bz n) = false.
Proof. intros. unfold between. rewrite byte_bz by lia. apply andb_false_iff. destruct (Z.leb_spec lo n); [right; apply Z.leb_gt; lia|left; reflexivity]. Qed.
Lemma low6_bz n : 0 <= n < 64 -> low6 (bz (128 + n)) = n.
Proof. intros H. unfold low6. rewrite byte_bz by lia. replace (128 + n) with (n + 2 * 64) by lia. rewrite Z.mod_add by lia. apply Z.mod_small. lia. Qed.

Lemma decode_utf8 r s : scalar r -> decode_rune (utf8 r ++ s) = (r, length (utf8 r)).
Proof.
  intros H. unfold utf8. fold (bz r).
  destruct (Z.ltb_spec r 128).
  { cbn [app decode_rune length]. fold (bz r). rewrite byte_bz by (unfold scalar in H; lia). destruct (Z.ltb_spec r 128); [reflexivity|lia]. }
  destruct (Z.ltb_spec r 2048).
  { cbn [app decode_rune length]. fold (bz (192 + r / 64)) (bz (128 + r mod 64)). dm r 64.
    rewrite (between_ok 194 223), (between_ok 128 191) by lia. rewrite low6_bz by lia. rewrite !byte_bz by lia.
    destruct (Z.ltb_spec (192 + q) 128); [lia|]. f_equal. replace (192 + q) with (q + 6 * 32) by lia. rewrite Z.mod_add, Z.mod_small by lia. lia. }
  destruct (Z.ltb_spec r 65536).
  { cbn [app decode_rune length]. fold (bz (224 + r / 4096)) (bz (128 + r / 64 mod 64)) (bz (128 + r mod 64)).
    replace (r / 4096) with (r / 64 / 64) by (rewrite Z.div_div by lia; reflexivity).
    dm r 64. dm q 64.
    rewrite (between_no 194 223), (between_ok 224 239), (between_ok 128 191) by lia. rewrite !low6_bz by lia. rewrite !byte_bz by lia.
    rewrite (between_ok (if 224 + q0 =? 224 then 160 else 128)).
    2,3: destruct (224 + q0 =? 224), (224 + q0 =? 237); lia.
    2: { unfold scalar in H. destruct (Z.eqb_spec (224 + q0) 224), (Z.eqb_spec (224 + q0) 237); lia. }
    destruct (Z.ltb_spec (224 + q0) 128); [lia|]. cbn [andb]. f_equal.
    replace (224 + q0) with (q0 + 14 * 16) by lia. rewrite Z.mod_add, Z.mod_small by lia. lia. }
  cbn [app decode_rune length]. fold (bz (240 + r / 262144)) (bz (128 + r / 4096 mod 64)) (bz (128 + r / 64 mod 64)) (bz (128 + r mod 64)).
  replace (r / 262144) with (r / 64 / 64 / 64) by (rewrite !Z.div_div by lia; reflexivity).
  replace (r / 4096) with (r / 64 / 64) by (rewrite !Z.div_div by lia; reflexivity).
  dm r 64. dm q 64. dm q0 64. unfold scalar in H.
  rewrite (between_no 194 223), (between_no 224 239), (between_ok 240 244), !(between_ok 128 191) by lia. rewrite !low6_bz by lia. rewrite !byte_bz by lia.
  rewrite (between_ok (if 240 + q1 =? 240 then 144 else 128)).
  2,3: destruct (240 + q1 =? 240), (240 + q1 =? 244); lia.
  2: { destruct (Z.eqb_spec (240 + q1) 240), (Z.eqb_spec (240 + q1) 244); lia. }
  destruct (Z.ltb_spec (240 + q1) 128); [lia|]. cbn [andb]. f_equal.
  replace (240 + q1) with (q1 + 30 * 8) by lia. rewrite Z.mod_add, Z.mod_small by lia. lia.
Qed.
Lemma utf8_prefix r r' s s' : scalar r -> scalar r' -> utf8 r ++ s = utf8 r' ++ s' -> r = r' /\ s = s'.
Proof.
  intros H H' E. pose proof (decode_utf8 r s H) as D. rewrite E, (decode_utf8 r' s' H') in D. apply pair_equal_spec in D as [-> _].
  split; [reflexivity|]. apply app_inv_head in E. exact E.
Qed.
Lemma utf8_nonnil r : utf8 r <> [].
Proof. unfold utf8. destruct (r <? 128), (r <? 2048), (r <? 65536); discriminate. Qed.

Lemma cont c : between 128 191 c = true -> bz (128 + low6 c) = c /\ 0 <= low6 c < 64.
Proof.
  unfold between, low6. intros H. zb. dm (byte c) 64.
  split; [|lia]. transitivity (bz (byte c)); [f_equal; lia|apply bz_byte].
Qed.

(** What DecodeRune returns is what the bytes encode, or U+FFFD for one byte. *)
Lemma decode_sound s : s <> [] ->
  decode_rune s = (rune_error, 1%nat) \/
  exists r s', scalar r /\ s = utf8 r ++ s' /\ decode_rune s = (r, length (utf8 r)).
Proof.
  intros Hne. destruct s as [|a s1]; [contradiction|].
  assert (Fin : forall r s', scalar r -> a :: s1 = utf8 r ++ s' ->
     decode_rune (a :: s1) = (rune_error, 1%nat) \/ exists r s', scalar r /\ a :: s1 = utf8 r ++ s' /\ decode_rune (a :: s1) = (r, length (utf8 r))).
  { intros r s' Hr E. right. exists r, s'. split; [exact Hr|]. split; [exact E|]. rewrite E. apply decode_utf8, Hr. }
  pose proof (byte_range a) as Ha.
  destruct (Z.ltb_spec (byte a) 128) as [L|L].
  { apply (Fin (byte a) s1); [left; lia|]. unfold utf8. destruct (Z.ltb_spec (byte a) 128); [|lia]. cbn [app]. fold (bz (byte a)). rewrite bz_byte. reflexivity. }
  cbn [decode_rune]. destruct (Z.ltb_spec (byte a) 128); [lia|].
  destruct (between 194 223 a) eqn:Ba.
  { destruct s1 as [|b s2]; [left; reflexivity|]. destruct (between 128 191 b) eqn:Bb; [|left; reflexivity].
    destruct (cont b Bb) as [Eb Rb]. unfold between in Ba. zb.
    assert (Ra : byte a mod 32 = byte a - 192) by (replace (byte a) with ((byte a - 192) + 6 * 32) at 1 by lia; rewrite Z.mod_add, Z.mod_small by lia; lia).
    rewrite Ra. set (r := (byte a - 192) * 64 + low6 b). assert (scalar r) by (unfold scalar, r; lia).
    assert (Er : a :: b :: s2 = utf8 r ++ s2).
    { unfold utf8. destruct (Z.ltb_spec r 128); [lia|]. destruct (Z.ltb_spec r 2048); [|lia].
      assert (r / 64 = byte a - 192) as -> by (symmetry; apply (Z.div_unique r 64 _ (low6 b)); lia).
      assert (r mod 64 = low6 b) as -> by (symmetry; apply (Z.mod_unique r 64 (byte a - 192)); lia).
      cbn [app]. fold (bz (192 + (byte a - 192))) (bz (128 + low6 b)). rewrite Eb. replace (192 + (byte a - 192)) with (byte a) by lia. rewrite bz_byte. reflexivity. }
    right. exists r, s2. split; [assumption|]. split; [exact Er|].
    unfold utf8. destruct (Z.ltb_spec r 128); [lia|]. destruct (Z.ltb_spec r 2048); [reflexivity|lia]. }
  destruct (between 224 239 a) eqn:Ba3.
  { destruct s1 as [|b [|c s2]]; [left; reflexivity..|].
    destruct (between (if byte a =? 224 then 160 else 128) (if byte a =? 237 then 159 else 191) b && between 128 191 c)%bool eqn:Bbc; [|left; reflexivity].
    apply andb_prop in Bbc as [Bb Bc]. destruct (cont c Bc) as [Ec Rc].
    assert (Bb' : between 128 191 b = true).
    { revert Bb. unfold between. destruct (byte a =? 224), (byte a =? 237); intros; zb; apply andb_true_intro; split; apply Z.leb_le; lia. }
    destruct (cont b Bb') as [Eb Rb]. unfold between in Ba, Ba3. zb.
    assert (Ra : byte a mod 16 = byte a - 224) by (replace (byte a) with ((byte a - 224) + 14 * 16) at 1 by lia; rewrite Z.mod_add, Z.mod_small by lia; lia).
    rewrite Ra. set (r := (byte a - 224) * 4096 + low6 b * 64 + low6 c).
    assert (Lb : byte b = 128 + low6 b) by (rewrite <- Eb at 1; apply byte_bz; lia).
    assert (2048 <= r < 65536 /\ scalar r) as [Hr Hs].
    { unfold r, scalar. revert Bb. unfold between. destruct (Z.eqb_spec (byte a) 224), (Z.eqb_spec (byte a) 237); intros; zb; lia. }
    assert (Er : a :: b :: c :: s2 = utf8 r ++ s2).
    { unfold utf8. destruct (Z.ltb_spec r 128); [lia|]. destruct (Z.ltb_spec r 2048); [lia|]. destruct (Z.ltb_spec r 65536); [|lia].
      assert (r / 64 = (byte a - 224) * 64 + low6 b) as -> by (symmetry; apply (Z.div_unique r 64 _ (low6 c)); lia).
      assert (r / 4096 = byte a - 224) as -> by (symmetry; apply (Z.div_unique r 4096 _ (low6 b * 64 + low6 c)); lia).
      assert (r mod 64 = low6 c) as -> by (symmetry; apply (Z.mod_unique r 64 ((byte a - 224) * 64 + low6 b)); lia).
      rewrite (Z.add_comm _ (low6 b)), Z.mod_add, (Z.mod_small (low6 b)) by lia.
      cbn [app]. fold (bz (224 + (byte a - 224))) (bz (128 + low6 b)) (bz (128 + low6 c)). rewrite Eb, Ec. replace (224 + (byte a - 224)) with (byte a) by lia. rewrite bz_byte. reflexivity. }
    right. exists r, s2. split; [assumption|]. split; [exact Er|].
    unfold utf8. destruct (Z.ltb_spec r 128); [lia|]. destruct (Z.ltb_spec r 2048); [lia|]. destruct (Z.ltb_spec r 65536); [reflexivity|lia]. }
  destruct (between 240 244 a) eqn:Ba4; [|left; reflexivity].
  destruct s1 as [|b [|c [|d s2]]]; [left; reflexivity..|].
  destruct (between (if byte a =? 240 then 144 else 128) (if byte a =? 244 then 143 else 191) b && between 128 191 c && between 128 191 d)%bool eqn:Bbc; [|left; reflexivity].
  apply andb_prop in Bbc as [Bbc Bd]. apply andb_prop in Bbc as [Bb Bc]. destruct (cont c Bc) as [Ec Rc]. destruct (cont d Bd) as [Ed Rd].
  assert (Bb' : between 128 191 b = true).
  { revert Bb. unfold between. destruct (byte a =? 240), (byte a =? 244); intros; zb; apply andb_true_intro; split; apply Z.leb_le; lia. }
  destruct (cont b Bb') as [Eb Rb]. unfold between in Ba4. zb.
  assert (Ra : byte a mod 8 = byte a - 240) by (replace (byte a) with ((byte a - 240) + 30 * 8) at 1 by lia; rewrite Z.mod_add, Z.mod_small by lia; lia).
  rewrite Ra. set (r := (byte a - 240) * 262144 + low6 b * 4096 + low6 c * 64 + low6 d).
  assert (Lb : byte b = 128 + low6 b) by (rewrite <- Eb at 1; apply byte_bz; lia).
  assert (65536 <= r < 1114112) as Hr.
  { unfold r. revert Bb. unfold between. destruct (Z.eqb_spec (byte a) 240), (Z.eqb_spec (byte a) 244); intros; zb; lia. }
  assert (Er : a :: b :: c :: d :: s2 = utf8 r ++ s2).
  { unfold utf8. destruct (Z.ltb_spec r 128); [lia|]. destruct (Z.ltb_spec r 2048); [lia|]. destruct (Z.ltb_spec r 65536); [lia|].
    assert (r / 64 = ((byte a - 240) * 64 + low6 b) * 64 + low6 c) as -> by (symmetry; apply (Z.div_unique r 64 _ (low6 d)); lia).
    assert (r / 4096 = (byte a - 240) * 64 + low6 b) as -> by (symmetry; apply (Z.div_unique r 4096 _ (low6 c * 64 + low6 d)); lia).
    assert (r / 262144 = byte a - 240) as -> by (symmetry; apply (Z.div_unique r 262144 _ (low6 b * 4096 + low6 c * 64 + low6 d)); lia).
    assert (r mod 64 = low6 d) as -> by (symmetry; apply (Z.mod_unique r 64 (((byte a - 240) * 64 + low6 b) * 64 + low6 c)); lia).
    rewrite (Z.add_comm _ (low6 b)), (Z.add_comm _ (low6 c)), !Z.mod_add, (Z.mod_small (low6 b)), (Z.mod_small (low6 c)) by lia.
    cbn [app]. fold (bz (240 + (byte a - 240))) (bz (128 + low6 b)) (bz (128 + low6 c)) (bz (128 + low6 d)). rewrite Eb, Ec, Ed.
    replace (240 + (byte a - 240)) with (byte a) by lia. rewrite bz_byte. reflexivity. }
  right. exists r, s2. split; [right; lia|]. split; [exact Er|].
  unfold utf8. destruct (Z.ltb_spec r 128); [lia|]. destruct (Z.ltb_spec r 2048); [lia|]. destruct (Z.ltb_spec r 65536); [lia|reflexivity].
Qed.

(** ** xml.EscapeText *)
Definition special : list (Z * bytes) :=
  [(34, B "&#34;"); (39, B "&#39;"); (38, B "&amp;"); (60, B "&lt;"); (62, B "&gt;"); (9, B "&#x9;"); (10, B "&#xA;"); (13, B "&#xD;")].
Definition plain_code (r : Z) : Prop := xml_code r /\ r ∉ map fst special.
Inductive esc : bytes -> bytes -> Prop :=
| esc_nil : esc [] []
| esc_plain r t e : plain_code r -> esc t e -> esc (utf8 r ++ t) (utf8 r ++ e)
| esc_special r x t e : (r, x) ∈ special -> esc t e -> esc (utf8 r ++ t) (x ++ e).
Lemma esc_xml t e : esc t e -> xml_text t.
Proof.
  induction 1 as [|r t e [H _] He (rs & Hrs & ->)|r x t e H He (rs & Hrs & ->)].
  - exists []. split; [constructor|reflexivity].
  - exists (r :: rs). split; [constructor; assumption|reflexivity].
  - exists (r :: rs). split; [|reflexivity]. constructor; [|assumption].
    apply elem_of_list_In in H. cbn in H. unfold xml_code. repeat (destruct H as [H|H]; [apply pair_equal_spec in H as [<- _]; lia|]). destruct H.
Qed.
Lemma xml_char_code r : xml_char r = true <-> xml_code r.
Proof.
  unfold xml_char, xml_code. rewrite !orb_true_iff, !andb_true_iff, !Z.eqb_eq, !Z.leb_le. tauto.
Qed.
Lemma replacement_utf8 : replacement = utf8 65533.
Proof. vm_compute. reflexivity. Qed.
Lemma plain_fffd : plain_code 65533.
Proof. split; [unfold xml_code; lia|]. apply (bool_decide_unpack _). vm_compute. exact I. Qed.
Lemma escape_rune_cases r w :
  (exists x, (r, x) ∈ special /\ escape_rune r w = Some x) \/
  (r ∉ map fst special /\
     ((escape_rune r w = Some replacement /\ (~ xml_code r \/ r = rune_error /\ w = 1%nat)) \/ (escape_rune r w = None /\ xml_code r /\ ~ (r = rune_error /\ w = 1%nat)))).
Proof.
  unfold escape_rune.
  repeat lazymatch goal with
  | |- context [if ?a =? ?b then Some (B ?s) else _] =>
      destruct (Z.eqb_spec a b) as [->|?]; [left; exists (B s); split; [apply (bool_decide_unpack _); vm_compute; exact I|reflexivity]|]
  end.
  right. split.
  { intros H. apply elem_of_list_In in H. cbn in H. lia. }
  destruct (xml_char r) eqn:E; cbn [negb orb].
  - apply xml_char_code in E. destruct (Z.eqb_spec r rune_error), (Nat.eqb_spec w 1); cbn [andb]; auto; right; (split; [reflexivity|]); (split; [exact E|]); tauto.
  - left. split; [reflexivity|]. left. intros H. apply xml_char_code in H. congruence.
Qed.
Lemma fold_byte_prefix a s r s' : xml_code r -> a :: s = utf8 r ++ s' -> decode_rune (a :: s) = (r, length (utf8 r)).
Proof. intros H E. rewrite E. apply decode_utf8, xml_code_scalar, H. Qed.
Lemma escape_go_shows fuel : forall s, (length s <= fuel)%nat -> exists t, shows s t /\ esc t (escape_go fuel s).
Proof.
  induction fuel as [|fuel IH]; intros s Hl.
  { destruct s; [|cbn in Hl; lia]. exists []. split; constructor. }
  destruct s as [|a s1]; [exists []; split; constructor|]. cbn [escape_go]. remember (a :: s1) as s eqn:Es.
  assert (Hne : s <> []) by (subst; discriminate).
  assert (Drop : forall w, (1 <= w)%nat -> exists t, shows (drop w s) t /\ esc t (escape_go fuel (drop w s))).
  { intros w Hw. apply IH. rewrite drop_length. subst s. cbn [length] in *. lia. }
  destruct (decode_sound s Hne) as [D|(r & s' & Hr & E & D)]; rewrite D.
  - destruct (Drop 1%nat ltac:(lia)) as (t & Ht & He).
    destruct (escape_rune_cases rune_error 1) as [(x & Hx & _)|[_ [[-> _]|[_ [_ H]]]]].
    + apply elem_of_list_In in Hx. cbn in Hx. repeat (destruct Hx as [Hx|Hx]; [apply pair_equal_spec in Hx as [Hx _]; discriminate|]). destruct Hx.
    + cbn [default]. exists (utf8 65533 ++ t). split; [|rewrite replacement_utf8; apply esc_plain; [exact plain_fffd|exact He]].
      subst s. cbn [drop] in Ht. change (a :: s1) with ([a] ++ s1). apply shows_bad; [discriminate|cbn; lia| |exact Ht].
      intros r s' Hr E. cbn [app] in E. pose proof (fold_byte_prefix a s1 r s' Hr E) as D'. rewrite D in D'. apply pair_equal_spec in D' as [D1 D2].
      subst r. vm_compute in D2. discriminate.
    + tauto.
  - assert (Hw : (1 <= length (utf8 r))%nat) by (pose proof (utf8_nonnil r); destruct (utf8 r); [contradiction|cbn; lia]).
    destruct (Drop (length (utf8 r)) Hw) as (t & Ht & He). rewrite E, drop_app in Ht. rewrite E, drop_app in He. rewrite E, drop_app, take_app.
    destruct (escape_rune_cases r (length (utf8 r))) as [(x & Hx & ->)|[Hn [[-> Hb]|[-> [Hx Hb]]]]]; cbn [default].
    + exists (utf8 r ++ t). assert (xml_code r).
      { apply elem_of_list_In in Hx. cbn in Hx. unfold xml_code. repeat (destruct Hx as [Hx|Hx]; [apply pair_equal_spec in Hx as [<- _]; lia|]). destruct Hx. }
      split; [apply shows_rune; assumption|apply esc_special; assumption].
    + exists (utf8 65533 ++ t). assert (Hnx : ~ xml_code r).
      { destruct Hb as [Hb|[-> Hb]]; [exact Hb|]. vm_compute in Hb. discriminate. }
      split; [|rewrite replacement_utf8; apply esc_plain; [exact plain_fffd|exact He]].
      apply shows_bad; [apply utf8_nonnil| | |exact Ht].
      * unfold scalar, xml_code in *. unfold utf8. destruct (Z.ltb_spec r 128), (Z.ltb_spec r 2048), (Z.ltb_spec r 65536); cbn; lia.
      * intros r' s'' Hr' E'. apply utf8_prefix in E' as [-> _]; [contradiction|exact Hr|apply xml_code_scalar, Hr'].
    + exists (utf8 r ++ t). split; [apply shows_rune; assumption|apply esc_plain; [split|]; assumption].
Qed.
Lemma escape_shows s : exists t, shows s t /\ esc t (escape_text s).
Proof. apply escape_go_shows. lia. Qed.

Lemma shows_exact s t : xml_text s -> shows s t -> t = s.
Proof.
  intros (rs & Hrs & E) H. revert rs Hrs E. induction H as [|r s t Hr Hs IH|x s t Hx Hl Hn Hs IH]; intros rs Hrs E; [reflexivity|..].
  - destruct Hrs as [|r' rs Hr' Hrs]; cbn [map concat] in E; [apply app_eq_nil in E as [E _]; destruct (utf8_nonnil r E)|].
    apply utf8_prefix in E as [-> E]; [|apply xml_code_scalar; assumption..]. rewrite (IH rs Hrs E). reflexivity.
  - destruct Hrs as [|r' rs Hr' Hrs]; cbn [map concat] in E; [apply app_eq_nil in E as [E _]; contradiction|].
    destruct (Hn r' _ Hr' E).
Qed.

(** ** What is plain to the XML reader *)
Definition plain_byte (c : ascii) : Prop := byte c ∉ [9; 10; 13; 34; 38; 60; 62].
Lemma is_byte c n : is c n = (byte c =? Z.of_N n).
Proof. unfold is, byte. destruct (N.eqb_spec (N_of_ascii c) n), (Z.eqb_spec (Z.of_N (N_of_ascii c)) (Z.of_N n)); congruence || lia. Qed.
Lemma plain_step m c cur ent tag at_ ats stk out :
  m = MText \/ m = MValue -> plain_byte c ->
  xstep (Some (X m cur ent tag at_ ats stk out)) c = Some (X m (c :: cur) ent tag at_ ats stk out).
Proof.
  intros Hm Hp. unfold plain_byte in Hp. rewrite !not_elem_of_cons in Hp. destruct Hp as (H1 & H2 & H3 & H4 & H5 & H6 & H7 & _).
  assert (E : forall n, byte c <> Z.of_N n -> is c n = false) by (intros n Hn; rewrite is_byte; apply Z.eqb_neq, Hn).
  destruct Hm as [-> | ->]; cbn [xstep].
  - rewrite (E 60%N), (E 38%N), (E 62%N) by assumption. reflexivity.
  - rewrite (E 34%N), (E 38%N), (E 60%N) by assumption. unfold xspace. rewrite (E 10%N), (E 13%N), (E 9%N) by assumption.
    rewrite !orb_false_r. destruct (is c 32) eqn:Es; [|reflexivity]. do 3 f_equal. rewrite is_byte in Es. apply Z.eqb_eq in Es. apply byte_inj. rewrite Es. reflexivity.
Qed.
Lemma run_plain m s : forall cur ent tag at_ ats stk out,
  m = MText \/ m = MValue -> Forall plain_byte s ->
  xrun s (Some (X m cur ent tag at_ ats stk out)) = Some (X m (rev s ++ cur) ent tag at_ ats stk out).
Proof.
  induction s as [|c s IH]; intros cur ent tag at_ ats stk out Hm Hs; [reflexivity|]. inversion Hs; subst.
  unfold xrun. cbn [fold_left]. rewrite plain_step by assumption. fold (xrun s). unfold xrun in IH. rewrite IH by assumption.
  cbn [rev]. rewrite <- app_assoc. reflexivity.
Qed.
Lemma xrun_app s t st : xrun (s ++ t) st = xrun t (xrun s st).
Proof. apply fold_left_app. Qed.
Lemma utf8_plain r : plain_code r -> Forall plain_byte (utf8 r).
Proof.
  intros [Hx Hs]. assert (Hr : r ∉ [9; 10; 13; 34; 38; 60; 62]).
  { intros H. apply Hs. apply elem_of_list_In in H. apply elem_of_list_In. cbn in H |- *. tauto. }
  assert (Big : forall n, 128 <= n < 256 -> plain_byte (ascii_of_N (Z.to_N n))).
  { intros n Hn. unfold plain_byte. fold (bz n). rewrite byte_bz by lia. intros H. apply elem_of_list_In in H. cbn in H. lia. }
  assert (0 <= r < 1114112) by (unfold xml_code in Hx; lia).
  unfold utf8. destruct (Z.ltb_spec r 128).
  { constructor; [|constructor]. unfold plain_byte. fold (bz r). rewrite byte_bz by lia. exact Hr. }
  assert (Low : forall x, 128 <= 128 + x mod 64 < 256) by (intros x; pose proof (Z.mod_pos_bound x 64 ltac:(lia)); lia).
  assert (Hi : forall k b u, 0 < k -> r < u * k -> 128 <= b -> b + u <= 256 -> 128 <= b + r / k < 256).
  { intros k b u Hk Hu Hb Hbu. pose proof (Z.div_lt_upper_bound r k u Hk ltac:(lia)). pose proof (Z.div_pos r k ltac:(lia) Hk). lia. }
  destruct (Z.ltb_spec r 2048); [|destruct (Z.ltb_spec r 65536)]; repeat (apply Forall_cons_2; [apply Big; try apply Low|]); try apply Forall_nil_2.
  - apply (Hi 64 192 32); lia.
  - apply (Hi 4096 224 16); lia.
  - apply (Hi 262144 240 5); lia.
Qed.
Lemma special_run r x : (r, x) ∈ special -> forall m cur tag at_ ats stk out, m = MText \/ m = MValue ->
  xrun x (Some (X m cur [] tag at_ ats stk out)) = Some (X m (rev (utf8 r) ++ cur) [] tag at_ ats stk out).
Proof.
  intros H m cur tag at_ ats stk out Hm. apply elem_of_list_In in H. cbn [special In] in H.
  repeat (destruct H as [H|H]; [apply pair_equal_spec in H as [<- <-]; destruct Hm as [-> | ->]; vm_compute; reflexivity|]). destruct H.
Qed.
(** The reader sees the text that was escaped. *)
Lemma esc_run t e : esc t e -> forall m cur tag at_ ats stk out, m = MText \/ m = MValue ->
  xrun e (Some (X m cur [] tag at_ ats stk out)) = Some (X m (rev t ++ cur) [] tag at_ ats stk out).
Proof.
  induction 1 as [|r t e Hp He IH|r x t e Hx He IH]; intros m cur tag at_ ats stk out Hm; [reflexivity|..].
  - rewrite xrun_app, run_plain by (auto using utf8_plain). rewrite IH by assumption. rewrite rev_app_distr, app_assoc. reflexivity.
  - rewrite xrun_app, (special_run r x) by assumption. rewrite IH by assumption. rewrite rev_app_distr, app_assoc. reflexivity.
Qed.
