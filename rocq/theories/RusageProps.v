(** C99: what environment reports of the process and of the memory. *)
From Verif Require Import Base BaseProofs Fval StructModel RusageModel RusageSpec.
Local Open Scope Z_scope.

Lemma exactly_map {X} name (named : list (string * (X -> fval))) x :
  NoDup (map fst named) -> (forall s s', B s = B s' -> s = s') ->
  reports_exactly name named x (map (fun p => (name, B (fst p), snd p x)) named).
Proof.
  intros N I. assert (M : forall f v, (name, f, v) ∈ map (fun p => (name, B (fst p), snd p x)) named <-> exists s get, (s, get) ∈ named /\ f = B s /\ v = get x).
  { intros f v. rewrite elem_of_list_fmap. split.
    - intros ([s get] & E & H). apply pair_equal_spec in E as [E ->]. apply pair_equal_spec in E as [_ ->]. exists s, get. split; [exact H|]. split; reflexivity.
    - intros (s & get & H & -> & ->). exists (s, get). split; [reflexivity|exact H]. }
  split; [exact M|]. intros f v v' H H'. apply M in H as (s & g & H & -> & ->). apply M in H' as (s' & g' & H' & E & ->). apply I in E. subst s'.
  apply elem_of_list_lookup in H as [i Hi]. apply elem_of_list_lookup in H' as [j Hj].
  assert (i = j) as <-. { apply (NoDup_lookup (map fst named) i j s N); rewrite list_lookup_fmap; [rewrite Hi|rewrite Hj]; reflexivity. }
  rewrite Hi in Hj. apply Some_inj, pair_equal_spec in Hj as [_ ->]. reflexivity.
Qed.
Lemma B_inj s s' : B s = B s' -> s = s'.
Proof. intros E. rewrite <- (string_of_list_ascii_of_string s), <- (string_of_list_ascii_of_string s'). unfold B in E. rewrite E. reflexivity. Qed.
Ltac nodup := repeat constructor; rewrite ?elem_of_cons, ?elem_of_nil; intuition discriminate.

(** Rusage: every member of what the system tells, under its documented name, and nothing else;
    nothing at all if the system call fails; it never panics. *)
Theorem C99_rusage :
  forall r l p, rusage_stats (Some r) = (l, p) ->
    p = false /\ reports_exactly (B "rusage") (map (fun n => (fst n, fun r => FInt (snd n r))) rusage_named) r l /\
    (forall s, s ∈ l -> fst (fst s) = B "rusage") /\ rusage_stats None = ([], false).
Proof.
  intros r l p E. assert (X : rusage_stats (Some r) = (map (fun n => (B "rusage", B (fst n), snd n r)) (map (fun n => (fst n, fun r => FInt (snd n r))) rusage_named), false)) by reflexivity.
  rewrite X in E. apply pair_equal_spec in E as [<- <-]. split; [reflexivity|]. split; [apply exactly_map; [cbn; nodup|exact B_inj]|]. split; [|reflexivity].
  intros s H. apply elem_of_list_fmap in H as (n & -> & _). reflexivity.
Qed.
Print Assumptions C99_rusage.

(** Runtime: the number of goroutines, every field of MemStats that is a number or a truth value
    under its name, and nothing else before the statistics of the pauses. *)
Theorem C99_runtime :
  forall goroutines m l p, runtime_stats goroutines m = (l, p) ->
    p = false /\ reports_exactly (B "goroutines") [("count"%string, fun _ : memstats => FInt goroutines)] m l /\
    reports_exactly (B "runtime_memstats") memstats_named m l /\
    (forall s, s ∈ l -> fst (fst s) = B "goroutines" \/ fst (fst s) = B "runtime_memstats").
Proof.
  intros g m l p E. assert (X : runtime_stats g m = ((B "goroutines", B "count", FInt g) :: map (fun n => (B "runtime_memstats", B (fst n), snd n m)) memstats_named, false)) by reflexivity.
  rewrite X in E. apply pair_equal_spec in E as [<- <-]. clear X. split; [reflexivity|].
  assert (D : B "runtime_memstats" <> B "goroutines") by (vm_compute; discriminate).
  assert (M : forall f v, (B "goroutines", f, v) ∉ map (fun n => (B "runtime_memstats", B (fst n), snd n m)) memstats_named).
  { intros f v H. apply elem_of_list_fmap in H as (n & H & _). apply pair_equal_spec in H as [H _]. apply pair_equal_spec in H as [H _]. apply D. symmetry. exact H. }
  destruct (exactly_map (B "goroutines") [("count"%string, fun _ : memstats => FInt g)] m) as [A1 A2]; [nodup|exact B_inj|]. cbn [map fst snd] in A1, A2.
  destruct (exactly_map (B "runtime_memstats") memstats_named m) as [B1 B2]; [cbn; nodup|exact B_inj|].
  assert (G : forall f v, (B "goroutines", f, v) ∈ (B "goroutines", B "count", FInt g) :: map (fun n => (B "runtime_memstats", B (fst n), snd n m)) memstats_named <-> (B "goroutines", f, v) ∈ [(B "goroutines", B "count", FInt g)]).
  { intros f v. rewrite !elem_of_cons, elem_of_nil. split; [intros [H|H]; [left; exact H|exfalso; exact (M f v H)]|intros [H|[]]; left; exact H]. }
  assert (K : forall f v, (B "runtime_memstats", f, v) ∈ (B "goroutines", B "count", FInt g) :: map (fun n => (B "runtime_memstats", B (fst n), snd n m)) memstats_named <-> (B "runtime_memstats", f, v) ∈ map (fun n => (B "runtime_memstats", B (fst n), snd n m)) memstats_named).
  { intros f v. rewrite elem_of_cons. split; [intros [H|H]; [exfalso|exact H]|intros H; right; exact H]. apply pair_equal_spec in H as [H _]. apply pair_equal_spec in H as [H _]. exact (D H). }
  split; [split|split; [split|]].
  - intros f v. rewrite G. apply A1.
  - intros f v v'. rewrite !G. apply A2.
  - intros f v. rewrite K. apply B1.
  - intros f v v'. rewrite !K. apply B2.
  - intros s H. apply elem_of_cons in H as [->|H]; [left; reflexivity|right]. apply elem_of_list_fmap in H as (n & -> & _). reflexivity.
Qed.
Print Assumptions C99_runtime.

Example C99_example :
  let r := Rusage (Timeval 1 2) (Timeval 3 4) 5 6 7 8 9 10 11 12 13 14 15 16 17 18 in
  (B "rusage", B "Stime.Usec", FInt 4) ∈ fst (rusage_stats (Some r)) /\ length (fst (rusage_stats (Some r))) = 18%nat.
Proof. split; [|reflexivity]. apply elem_of_list_lookup. exists 3%nat. reflexivity. Qed.
