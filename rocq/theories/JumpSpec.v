(** Vocabulary for C69: the stream of xorshift1024. *)
From Verif Require Import Base RngModel RngSpec.
Local Open Scope N_scope.

(** The state after [n] draws, and the result of draw number [n] (from 0). *)
Definition after1024 (s : xs1024) (n : N) : xs1024 := N.iter n (fun s => fst (xs1024_next s)) s.
Definition draw1024 (s : xs1024) (n : N) : N := snd (xs1024_next (after1024 s n)).
(** A state the generator can be in, other than the all-zero one. *)
Definition live1024 (s : xs1024) : Prop := valid1024 s /\ x_s s <> replicate 16 0.
