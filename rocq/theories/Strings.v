(** Functions of Go's strings package used by the modelled code. *)
From Verif Require Import Base.

(** strings.Split(s, c) for a one-byte separator. *)
Fixpoint split (c : ascii) (s : bytes) : list bytes :=
  match s with
  | [] => [[]]
  | a :: s' =>
      if Ascii.eqb a c then [] :: split c s'
      else match split c s' with
           | [] => [[a]]        (* not reached: a split is never empty *)
           | p :: ps => (a :: p) :: ps
           end
  end.

(** strings.SplitN(s, c, 2). *)
Fixpoint split2 (c : ascii) (s : bytes) : list bytes :=
  match s with
  | [] => [[]]
  | a :: s' =>
      if Ascii.eqb a c then [[]; s']
      else match split2 c s' with
           | [] => [[a]]
           | p :: ps => (a :: p) :: ps
           end
  end.

(** strings.IndexByte / strings.LastIndexByte: the first or last position of [c]. *)
Fixpoint index_byte (c : ascii) (s : bytes) : option nat :=
  match s with
  | [] => None
  | a :: s' => if Ascii.eqb a c then Some 0%nat else S <$> index_byte c s'
  end.
Fixpoint last_index_byte (c : ascii) (s : bytes) : option nat :=
  match s with
  | [] => None
  | a :: s' => match last_index_byte c s' with
               | Some i => Some (S i)
               | None => if Ascii.eqb a c then Some 0%nat else None
               end
  end.

(** ** Facts *)
Lemma split_nonnil c s : split c s <> [].
Proof. destruct s as [|a s]; [discriminate|]. cbn. destruct (Ascii.eqb a c); [discriminate|]. destruct (split c s); discriminate. Qed.
Lemma split_join c s : join [c] (split c s) = s.
Proof.
  induction s as [|a s IH]; [reflexivity|]. cbn [split]. destruct (Ascii.eqb_spec a c) as [->|Hne].
  - destruct (split c s) as [|p ps] eqn:E; [destruct (split_nonnil c s E)|]. cbn in *. rewrite IH. reflexivity.
  - destruct (split c s) as [|p ps] eqn:E; [destruct (split_nonnil c s E)|]. destruct ps as [|q ps]; cbn in *; rewrite <- IH; reflexivity.
Qed.
Lemma split_free c s : Forall (fun p => c ∉ p) (split c s).
Proof.
  induction s as [|a s IH]; [constructor; [apply not_elem_of_nil|constructor]|]. cbn [split]. destruct (Ascii.eqb_spec a c) as [->|Hne].
  - constructor; [apply not_elem_of_nil|exact IH].
  - destruct (split c s) as [|p ps]; [constructor; [|constructor]; rewrite elem_of_list_singleton; congruence|].
    apply Forall_cons in IH as [H1 H2]. constructor; [rewrite not_elem_of_cons; auto|exact H2].
Qed.
Lemma split_app c p s : c ∉ p -> split c (p ++ c :: s) = p :: split c s.
Proof.
  induction p as [|a p IH]; intros Hp; cbn [split app].
  - rewrite Ascii.eqb_refl. reflexivity.
  - apply not_elem_of_cons in Hp as [Ha Hp]. destruct (Ascii.eqb_spec a c) as [->|_]; [congruence|]. rewrite (IH Hp). reflexivity.
Qed.
Lemma split_one c p : c ∉ p -> split c p = [p].
Proof.
  induction p as [|a p IH]; intros Hp; [reflexivity|]. cbn [split]. apply not_elem_of_cons in Hp as [Ha Hp].
  destruct (Ascii.eqb_spec a c) as [->|_]; [congruence|]. rewrite (IH Hp). reflexivity.
Qed.
Lemma split_of_join c ps : ps <> [] -> Forall (fun p => c ∉ p) ps -> split c (join [c] ps) = ps.
Proof.
  intros Hne Hf. induction ps as [|p ps IH]; [congruence|]. apply Forall_cons in Hf as [Hp Hf]. destruct ps as [|q ps].
  - apply split_one, Hp.
  - change (join [c] (p :: q :: ps)) with (p ++ c :: join [c] (q :: ps)). rewrite (split_app c p _ Hp), IH; [reflexivity|discriminate|exact Hf].
Qed.
Lemma split2_one c p : c ∉ p -> split2 c p = [p].
Proof.
  induction p as [|a p IH]; intros Hp; [reflexivity|]. cbn [split2]. apply not_elem_of_cons in Hp as [Ha Hp].
  destruct (Ascii.eqb_spec a c) as [->|_]; [congruence|]. rewrite (IH Hp). reflexivity.
Qed.
Lemma split2_app c p s : c ∉ p -> split2 c (p ++ c :: s) = [p; s].
Proof.
  induction p as [|a p IH]; intros Hp; cbn [split2 app].
  - rewrite Ascii.eqb_refl. reflexivity.
  - apply not_elem_of_cons in Hp as [Ha Hp]. destruct (Ascii.eqb_spec a c) as [->|_]; [congruence|]. rewrite (IH Hp). reflexivity.
Qed.
(** The first separator. *)
Lemma cut_first (c : ascii) (s : bytes) : c ∈ s -> exists p t, s = p ++ c :: t /\ c ∉ p.
Proof.
  induction s as [|a s IH]; intros H; [apply elem_of_nil in H; destruct H|]. destruct (decide (a = c)) as [->|Hne].
  - exists [], s. split; [reflexivity|apply not_elem_of_nil].
  - apply elem_of_cons in H as [H|H]; [congruence|]. destruct (IH H) as (p & t & -> & Hp). exists (a :: p), t. split; [reflexivity|]. rewrite not_elem_of_cons. auto.
Qed.
Lemma cut_last (c : ascii) (s : bytes) : c ∈ s -> exists p t, s = p ++ c :: t /\ c ∉ t.
Proof.
  induction s as [|a s IH]; intros H; [apply elem_of_nil in H; destruct H|]. destruct (decide (c ∈ s)) as [Hi|Hi].
  - destruct (IH Hi) as (p & t & -> & Hp). exists (a :: p), t. split; [reflexivity|exact Hp].
  - apply elem_of_cons in H as [<-|H]; [|contradiction]. exists [], s. split; [reflexivity|exact Hi].
Qed.
Lemma index_byte_none c s : c ∉ s -> index_byte c s = None.
Proof.
  induction s as [|a s IH]; intros H; [reflexivity|]. apply not_elem_of_cons in H as [H1 H2]. cbn. destruct (Ascii.eqb_spec a c) as [->|_]; [congruence|]. rewrite (IH H2). reflexivity.
Qed.
Lemma index_byte_app c p t : c ∉ p -> index_byte c (p ++ c :: t) = Some (length p).
Proof.
  induction p as [|a p IH]; intros H; cbn.
  - rewrite Ascii.eqb_refl. reflexivity.
  - apply not_elem_of_cons in H as [H1 H2]. destruct (Ascii.eqb_spec a c) as [->|_]; [congruence|]. rewrite (IH H2). reflexivity.
Qed.
Lemma last_index_byte_none c s : c ∉ s -> last_index_byte c s = None.
Proof.
  induction s as [|a s IH]; intros H; [reflexivity|]. apply not_elem_of_cons in H as [H1 H2]. cbn. rewrite (IH H2). destruct (Ascii.eqb_spec a c) as [->|_]; [congruence|]. reflexivity.
Qed.
Lemma last_index_byte_app c p t : c ∉ t -> last_index_byte c (p ++ c :: t) = Some (length p).
Proof.
  intros H. induction p as [|a p IH]; cbn.
  - rewrite (last_index_byte_none c t H), Ascii.eqb_refl. reflexivity.
  - rewrite IH. reflexivity.
Qed.
