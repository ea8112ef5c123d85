From Verif Require Import Base Strings CallersModel CallersSpec.
Local Open Scope Z_scope.
Local Arguments B : simpl never.

Lemma B_slash : B "/" = [slash]. Proof. reflexivity. Qed.
Lemma B_dot : B "." = [dot]. Proof. reflexivity. Qed.
Lemma dir_cases (n : bytes) : exists dir rest, n = dir ++ rest /\ slash ∉ rest /\ ((dir = [] /\ last_index_byte slash n = None) \/ exists d, dir = d ++ [slash] /\ last_index_byte slash n = Some (length d)).
Proof.
  destruct (decide (slash ∈ n)) as [Hin|Hno].
  - destruct (cut_last slash n Hin) as (p & t & -> & Ht). exists (p ++ [slash]), t. split; [rewrite <- app_assoc; reflexivity|]. split; [exact Ht|]. right. exists p. split; [reflexivity|]. apply last_index_byte_app, Ht.
  - exists [], n. split; [reflexivity|]. split; [exact Hno|]. left. split; [reflexivity|]. apply last_index_byte_none, Hno.
Qed.
Lemma slice_from_app (p t : bytes) k : k = Z.of_nat (length p) -> slice_from (p ++ t) k = Ok t.
Proof.
  intros ->. unfold slice_from. rewrite app_length. replace ((0 <=? Z.of_nat (length p)) && (Z.of_nat (length p) <=? Z.of_nat (length p + length t))) with true by (symmetry; apply andb_true_iff; split; apply Z.leb_le; lia).
  rewrite Nat2Z.id, drop_app. reflexivity.
Qed.
Lemma extract_yes n dir last fn : qualified n dir last fn -> extract_func_name n = Ok (fn, true).
Proof.
  unfold qualified; rewrite B_dot, B_slash; intros (-> & Hdir & Hlast & Hfn & Hne). set (q := last ++ [dot] ++ fn).
  assert (Hl : dot ∉ last) by (intros H; destruct (Hlast _ H) as [_ X]; exact (X eq_refl)).
  assert (Hq : slash ∉ q).
  { unfold q. rewrite !elem_of_app, elem_of_list_singleton. intros [H|[H|H]]; [destruct (Hlast _ H) as [X _]; exact (X eq_refl)|discriminate H|exact (Hfn _ H eq_refl)]. }
  assert (Hlen : (length q = length last + S (length fn))%nat) by (unfold q; rewrite !app_length; reflexivity).
  assert (Hfl : (0 < length fn)%nat) by (destruct fn; [congruence|cbn; lia]).
  assert (Hin : (if (pos (index_byte dot q) <? 0) || (Z.of_nat (length q) <=? pos (index_byte dot q) + 1) then Ok ([], false)
     else match slice_from q (pos (index_byte dot q) + 1) with Panic m => Panic m | Ok f => Ok (f, true) end) = Ok (fn, true)).
  { unfold q. cbn [app]. rewrite (index_byte_app dot last fn Hl). cbn [pos]. replace (Z.of_nat (length last) <? 0) with false by (symmetry; apply Z.ltb_ge; lia). fold q. change (last ++ dot :: fn) with q. replace (Z.of_nat (length q) <=? Z.of_nat (length last) + 1) with false by (symmetry; apply Z.leb_gt; lia).
    cbn [orb]. change q with (last ++ [dot] ++ fn). rewrite app_assoc. rewrite slice_from_app; [reflexivity|]. rewrite app_length. cbn. lia. }
  unfold extract_func_name. destruct Hdir as [->|[d ->]].
  - cbn [app]. rewrite (last_index_byte_none _ _ Hq). cbn [pos]. replace (Z.of_nat (length q) <=? -1 + 1) with false by (symmetry; apply Z.leb_gt; lia).
    rewrite (slice_from_app [] q) by reflexivity. exact Hin.
  - replace ((d ++ [slash]) ++ q) with (d ++ slash :: q) by (rewrite <- app_assoc; reflexivity). rewrite (last_index_byte_app slash d q Hq). cbn [pos]. rewrite app_length. cbn [length].
    replace (Z.of_nat (length d + S (length q)) <=? Z.of_nat (length d) + 1) with false by (symmetry; apply Z.leb_gt; lia).
    replace (d ++ slash :: q) with ((d ++ [slash]) ++ q) by (rewrite <- app_assoc; reflexivity). rewrite slice_from_app by (rewrite app_length; cbn; lia). exact Hin.
Qed.
Lemma extract_total n : extract_func_name n = Ok ([], false) \/ exists dir last fn, qualified n dir last fn.
Proof.
  destruct (dir_cases n) as (dir & q & -> & Hq & Hdir).
  assert (Hd : (dir = [] \/ exists d, dir = d ++ B "/") /\ pos (last_index_byte slash (dir ++ q)) + 1 = Z.of_nat (length dir)).
  { destruct Hdir as [[-> ->]|(d & -> & ->)]; [split; [auto|reflexivity]|]. split; [right; exists d; reflexivity|]. rewrite app_length. cbn. lia. }
  destruct Hd as [Hd1 Hd2]. unfold extract_func_name. rewrite Hd2, app_length. destruct (Z.leb_spec (Z.of_nat (length dir + length q)) (Z.of_nat (length dir))) as [Hle|Hlt]; [left; reflexivity|].
  rewrite slice_from_app by reflexivity. destruct (decide (dot ∈ q)) as [Hin|Hno].
  - destruct (cut_first dot q Hin) as (p & t & -> & Hp). rewrite (index_byte_app dot p t Hp). cbn [pos]. destruct t as [|c t].
    + left. rewrite app_length. cbn [length]. replace (Z.of_nat (length p + 1) <=? Z.of_nat (length p) + 1) with true by (symmetry; apply Z.leb_le; lia). rewrite orb_true_r. reflexivity.
    + right. exists dir, p, (c :: t). split; [rewrite B_dot; reflexivity|]. split; [exact Hd1|]. split; [|split; [|discriminate]].
      * intros a Ha. split; intros ->; [|auto]. apply Hq. rewrite elem_of_app. auto.
      * intros a Ha ->. apply Hq. rewrite elem_of_app, elem_of_cons. auto.
  - left. rewrite (index_byte_none dot q Hno). reflexivity.
Qed.
Lemma extract_iff n fn : extract_func_name n = Ok (fn, true) <-> exists dir last, qualified n dir last fn.
Proof.
  split; [|intros (dir & last & H); eapply extract_yes, H]. intros H. destruct (extract_total n) as [E|(dir & last & fn' & Hq)]; [rewrite E in H; discriminate H|].
  pose proof (extract_yes _ _ _ _ Hq) as E. rewrite H in E. assert (fn = fn') as -> by congruence. eauto.
Qed.
Lemma extract_else n : (forall dir last fn, ~ qualified n dir last fn) -> extract_func_name n = Ok ([], false).
Proof. intros H. destruct (extract_total n) as [E|(dir & last & fn & Hq)]; [exact E|destruct (H _ _ _ Hq)]. Qed.
Lemma caller_func_name n : caller_func n = Ok (B "unknown") \/ exists m dir last fn, n = Some m /\ qualified m dir last fn /\ caller_func n = Ok fn.
Proof.
  destruct n as [m|]; [|left; reflexivity]. destruct (extract_total m) as [E|(dir & last & fn & Hq)].
  - left. unfold caller_func. rewrite E. destruct m; reflexivity.
  - right. exists m, dir, last, fn. split; [reflexivity|]. split; [exact Hq|]. unfold caller_func. rewrite (extract_yes _ _ _ _ Hq).
    destruct m; [|reflexivity]. destruct Hq as (E & _). destruct dir; [destruct last|]; discriminate E.
Qed.

Lemma split_last_no c (s t : bytes) : c ∉ t -> split c (s ++ c :: t) = split c s ++ [t].
Proof.
  intros Ht. induction s as [|a s IH]; cbn [app split].
  - rewrite Ascii.eqb_refl, (split_one c t Ht). reflexivity.
  - destruct (Ascii.eqb a c); rewrite IH; [reflexivity|]. destruct (split c s) as [|p ps] eqn:E; [destruct (split_nonnil c s E)|]. reflexivity.
Qed.
Lemma package_path n d last fn : qualified n (d ++ B "/") last fn -> caller_package (Some n) = d ++ B "/" ++ last.
Proof.
  unfold qualified; rewrite B_dot, !B_slash; intros (-> & _ & Hlast & Hfn & _). unfold caller_package.
  assert (Hq : slash ∉ last ++ [dot] ++ fn).
  { rewrite !elem_of_app, elem_of_list_singleton. intros [H|[H|H]]; [destruct (Hlast _ H) as [X _]; exact (X eq_refl)|discriminate H|exact (Hfn _ H eq_refl)]. }
  assert (Hl : dot ∉ last) by (intros H; destruct (Hlast _ H) as [_ X]; exact (X eq_refl)).
  rewrite <- app_assoc. change ([slash] ++ last ++ [dot] ++ fn) with (slash :: (last ++ [dot] ++ fn)). rewrite (split_last_no slash d _ Hq). rewrite last_last, removelast_last. rewrite B_slash, split_join. f_equal. f_equal.
  cbn [app]. rewrite (split2_app dot last fn Hl). reflexivity.
Qed.
Lemma package_pathless n last fn : qualified n [] last fn -> caller_package (Some n) = B "/" ++ last.
Proof.
  unfold qualified; rewrite B_dot; intros (-> & _ & Hlast & Hfn & _). unfold caller_package. cbn [app].
  assert (Hq : slash ∉ last ++ dot :: fn).
  { rewrite elem_of_app, elem_of_cons. intros [H|[H|H]]; [destruct (Hlast _ H) as [X _]; exact (X eq_refl)|discriminate H|exact (Hfn _ H eq_refl)]. }
  assert (Hl : dot ∉ last) by (intros H; destruct (Hlast _ H) as [_ X]; exact (X eq_refl)).
  rewrite (split_one slash _ Hq). cbn [List.last removelast]. rewrite (split2_app dot last fn Hl). reflexivity.
Qed.
Lemma path_refuted : exists n last fn, qualified n [] last fn /\ caller_package (Some n) <> last.
Proof.
  exists (B "main.f"), (B "main"), (B "f"). assert (H : qualified (B "main.f") [] (B "main") (B "f")).
  { split; [reflexivity|]. split; [auto|]. split; [|split; [|discriminate]]; intros c Hc; apply elem_of_list_In in Hc; vm_compute in Hc; intuition (subst; discriminate). }
  split; [exact H|]. rewrite (package_pathless _ _ _ H). discriminate.
Qed.
