(** Vocabulary for C68: the stream of the generator behind the reservoirs. *)
From Verif Require Import Base RngModel RngSpec.
Local Open Scope N_scope.

(** The state after [n] draws, and the result of draw number [n] (from 0). *)
Definition state_after (s : N * N) (n : N) : N * N := N.iter n (fun s => fst (xs128_next s)) s.
Definition draw (s : N * N) (n : N) : N := snd (xs128_next (state_after s n)).
Definition full : N := 2 ^ 128 - 1.
Definition live (s : N * N) : Prop := valid128 s /\ s <> (0, 0).
