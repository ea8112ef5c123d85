(** Vocabulary for C38, C39. *)
From Verif Require Import Base.

(** [n] is the qualified name of function [fn] in the package whose path is [dir] (empty or
    ending in "/") followed by [last]. *)
Definition qualified (n dir last fn : bytes) : Prop :=
  n = dir ++ last ++ B "." ++ fn /\
  (dir = [] \/ exists d, dir = d ++ B "/") /\
  (forall c, c ∈ last -> c <> "/"%char /\ c <> "."%char) /\
  (forall c, c ∈ fn -> c <> "/"%char) /\ fn <> [].
