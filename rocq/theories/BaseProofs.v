(** Facts about the shared vocabulary. *)
From Verif Require Export Base.
From Coq Require Export Sorted.
From Coq Require Import ZifyBool ZifyNat ZifyN.

Lemma N_of_ascii_inj a c : N_of_ascii a = N_of_ascii c -> a = c.
Proof.
  intros H. rewrite <- (ascii_N_embedding a), <- (ascii_N_embedding c), H. reflexivity.
Qed.

Lemma bytes_ltb_irrefl x : bytes_ltb x x = false.
Proof.
  induction x as [|a x IH]; cbn; [reflexivity|].
  rewrite N.ltb_irrefl. exact IH.
Qed.

Lemma bytes_ltb_trans x y z :
  bytes_ltb x y = true -> bytes_ltb y z = true -> bytes_ltb x z = true.
Proof.
  revert y z; induction x as [|a x IH]; intros [|c y] [|d z]; cbn; try congruence.
  destruct (N.ltb_spec (N_of_ascii a) (N_of_ascii c));
  destruct (N.ltb_spec (N_of_ascii c) (N_of_ascii d));
  destruct (N.ltb_spec (N_of_ascii c) (N_of_ascii a));
  destruct (N.ltb_spec (N_of_ascii d) (N_of_ascii c));
  destruct (N.ltb_spec (N_of_ascii a) (N_of_ascii d));
  destruct (N.ltb_spec (N_of_ascii d) (N_of_ascii a));
  try congruence; try lia. apply IH.
Qed.

Lemma bytes_ltb_total x y : bytes_ltb x y = false -> bytes_ltb y x = false -> x = y.
Proof.
  revert y; induction x as [|a x IH]; intros [|c y]; cbn; try congruence.
  destruct (N.ltb_spec (N_of_ascii a) (N_of_ascii c));
  destruct (N.ltb_spec (N_of_ascii c) (N_of_ascii a)); try congruence; try lia.
  intros H1 H2. f_equal; [apply N_of_ascii_inj; lia | auto].
Qed.

Lemma bytes_ltb_asym x y : bytes_ltb x y = true -> bytes_ltb y x = false.
Proof.
  intros H. destruct (bytes_ltb y x) eqn:E; [|reflexivity].
  pose proof (bytes_ltb_trans _ _ _ H E) as H1. rewrite bytes_ltb_irrefl in H1. congruence.
Qed.

Lemma beqb_true x y : beqb x y = true <-> x = y.
Proof. unfold beqb. apply bool_decide_eq_true. Qed.

(** ** Insertion sort *)
Section sort.
  Context {A : Type} (less : A -> A -> bool).

  Lemma sinsert_perm x l : sinsert less x l ≡ₚ x :: l.
  Proof.
    induction l as [|y l IH]; cbn; [reflexivity|].
    destruct (less x y); [reflexivity|]. rewrite IH. apply Permutation_swap.
  Qed.
  Lemma isort_perm l : isort less l ≡ₚ l.
  Proof.
    induction l as [|x l IH]; cbn; [reflexivity|].
    rewrite sinsert_perm, IH. reflexivity.
  Qed.
  Lemma isort_length l : length (isort less l) = length l.
  Proof. apply Permutation_length, isort_perm. Qed.

  (** Sorted: no later element is less than an earlier one. *)
  Definition nolater (x y : A) : Prop := less y x = false.
  Hypothesis less_trans : forall x y z, less y x = false -> less z y = false -> less z x = false.
  Hypothesis less_asym : forall x y, less x y = true -> less y x = false.

  Lemma sinsert_sorted x l :
    StronglySorted nolater l -> StronglySorted nolater (sinsert less x l).
  Proof.
    induction l as [|y l IH]; cbn; intros Hs.
    - repeat constructor.
    - apply StronglySorted_inv in Hs as [Hs Hf].
      destruct (less x y) eqn:E.
      + constructor; [constructor; assumption|].
        constructor; [apply less_asym; assumption|].
        eapply Forall_impl; [exact Hf|]. intros z Hz. unfold nolater in *.
        eapply less_trans; [|exact Hz]. apply less_asym; assumption.
      + constructor; [auto|].
        rewrite sinsert_perm. constructor; [exact E|exact Hf].
  Qed.
  Lemma isort_sorted l : StronglySorted nolater (isort less l).
  Proof.
    induction l as [|x l IH]; cbn; [constructor|]. apply sinsert_sorted; assumption.
  Qed.
End sort.

(** Two permutations of each other that are strictly sorted are equal. *)
Lemma strictly_sorted_unique {A} (R : A -> A -> Prop) (l1 l2 : list A) :
  (forall x, ~ R x x) -> (forall x y z, R x y -> R y z -> R x z) ->
  StronglySorted R l1 -> StronglySorted R l2 -> l1 ≡ₚ l2 -> l1 = l2.
Proof.
  intros Hirr Htr. revert l2. induction l1 as [|x l1 IH]; intros l2 H1 H2 Hp.
  - apply Permutation_nil in Hp. auto.
  - destruct l2 as [|y l2]; [apply Permutation_sym, Permutation_nil in Hp; discriminate|].
    apply StronglySorted_inv in H1 as [H1 F1]. apply StronglySorted_inv in H2 as [H2 F2].
    rewrite Forall_forall in F1, F2.
    assert (x = y) as <-.
    { assert (Hx : x ∈ y :: l2) by (rewrite <- Hp; left).
      assert (Hy : y ∈ x :: l1) by (rewrite Hp; left).
      apply elem_of_cons in Hx as [?|Hx]; [assumption|].
      apply elem_of_cons in Hy as [?|Hy]; [congruence|].
      destruct (Hirr x). apply Htr with y; [apply F1; assumption | apply F2; assumption]. }
    f_equal. apply IH; try assumption. apply Permutation_cons_inv in Hp. exact Hp.
Qed.

(** ** Wrap-around *)
Local Open Scope Z_scope.
Lemma wrap64_id z : in64 z -> wrap64 z = z.
Proof. unfold in64, wrap64. intros H. rewrite Z.mod_small; lia. Qed.
Lemma wrap64_in64 z : in64 (wrap64 z).
Proof.
  unfold in64, wrap64. pose proof (Z.mod_pos_bound (z + 2 ^ 63) (2 ^ 64) eq_refl). lia.
Qed.
Lemma wrap64_mod z : (wrap64 z) mod 2 ^ 64 = z mod 2 ^ 64.
Proof.
  unfold wrap64. rewrite Zminus_mod_idemp_l. f_equal. lia.
Qed.
Lemma wrap64_eq x y : x mod 2 ^ 64 = y mod 2 ^ 64 -> wrap64 x = wrap64 y.
Proof.
  intros H. unfold wrap64. f_equal.
  rewrite <- (Zplus_mod_idemp_l x), <- (Zplus_mod_idemp_l y), H. reflexivity.
Qed.
Lemma wrap64_add_l x y : wrap64 (wrap64 x + y) = wrap64 (x + y).
Proof.
  apply wrap64_eq. rewrite <- Zplus_mod_idemp_l, wrap64_mod, Zplus_mod_idemp_l. reflexivity.
Qed.
Lemma wrap64_add_r x y : wrap64 (x + wrap64 y) = wrap64 (x + y).
Proof. rewrite Z.add_comm, wrap64_add_l. f_equal. lia. Qed.
Lemma wrap64_sub_l x y : wrap64 (wrap64 x - y) = wrap64 (x - y).
Proof. apply (wrap64_add_l x (- y)). Qed.
Lemma wrap64_sub_r x y : wrap64 (x - wrap64 y) = wrap64 (x - y).
Proof.
  apply wrap64_eq. rewrite <- Zminus_mod_idemp_r, wrap64_mod, Zminus_mod_idemp_r. reflexivity.
Qed.
Lemma wrap64_wrap64 x : wrap64 (wrap64 x) = wrap64 x.
Proof. apply wrap64_eq, wrap64_mod. Qed.

(** [injection] also takes bytes apart; these do not. *)
Lemma cons_inv {A} (a a' : A) (l l' : list A) : a :: l = a' :: l' -> a = a' /\ l = l'.
Proof. intros E. split; [exact (f_equal (hd a) E)|exact (f_equal (@List.tl A) E)]. Qed.
