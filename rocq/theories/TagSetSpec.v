(** Specification vocabulary for tag sets. *)
From Verif Require Import Base TagSetModel.

(** A nil pointer or a pointer to an existing TagSet. *)
Definition valid (h : heap) (t : option nat) : Prop :=
  match t with None => True | Some i => i < length (h_sets h) end.

(** Everything observable through a pointer. *)
Definition observe (h : heap) (t : option nat) : gmap bytes bytes * nat * (bytes -> bytes) * bytes :=
  (map_contents h (ts_all_ref h t), ts_len h t, ts_get h t, snd (ts_string h t)).

