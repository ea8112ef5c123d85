(** Property C69: Jump of xorshift1024. *)
From Verif Require Import Base RngModel RngSpec JumpModel JumpSpec JumpProofs.
Local Open Scope N_scope.

(** C69: Jump keeps the state valid, and drawing n results and then jumping gives the same
    state as jumping and then drawing n results. *)
Theorem C69_jump_commutes : forall s n, valid1024 s ->
  valid1024 (xs1024_jump s) /\ xs1024_jump (after1024 s n) = after1024 (xs1024_jump s) n.
Proof. intros s n H. split; [apply jump_ok, H|apply jump_after, H]. Qed.
Print Assumptions C69_jump_commutes.

(** C69: so the results drawn after a jump made after n draws are those of the stream jumped
    at once, from draw number n on. *)
Theorem C69_jump_stream : forall s n k, valid1024 s ->
  draw1024 (xs1024_jump (after1024 s n)) k = draw1024 (xs1024_jump s) (n + k).
Proof. exact jump_draws. Qed.
Print Assumptions C69_jump_stream.

(** C69: Jump does not advance the state by 2^512 draws, as its comment has it: from a
    non-zero state the next result differs. *)
Theorem C69_jump_distance_refuted : exists s, live1024 s /\ draw1024 (xs1024_jump s) 0 <> draw1024 s (2 ^ 512).
Proof. exact (ex_intro _ short (conj short_live jump_not)). Qed.
Print Assumptions C69_jump_distance_refuted.

(** C69: nor does the generator have one period from all non-zero states: from this one its
    results repeat every 4369 draws. *)
Theorem C69_period_refuted : exists s, live1024 s /\ forall n, draw1024 s (n + 4369) = draw1024 s n.
Proof. exact (ex_intro _ short (conj short_live short_cycle)). Qed.
Print Assumptions C69_period_refuted.

Example C69_ex : valid1024 short /\ x_p (xs1024_jump short) = 0 /\ draw1024 short 0 <> draw1024 short 1.
Proof. split_and!; [apply short_live|apply jump_ok, short_live|vm_compute; discriminate]. Qed.
